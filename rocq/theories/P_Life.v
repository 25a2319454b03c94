(** * C64: at every moment in the life of a repository, whatever calls were made and
      interrupted, everything held can be got back and the next session be made *)
From Coq Require Import List ZArith Bool Ascii Lia Sorting.Permutation Sorting.Sorted.
From Verif Require Import Base L_Base M_Core L_Core P_Core M_Crash L_Crash M_Iter L_Iter L_Tree L_Lookup P_Iter
  M_MetaMgr L_MetaMgr L_MetaDir P_MetaMgr M_Global S_Global L_Global L_First P_Global P_First M_Life S_Life L_LifeCut L_Life.
Import List ListNotations.
Local Open Scope Z_scope.

(** the conditions concern the sources and outcomes only *)
Lemma sound_incl {attr} delta patch sha1 same loose fa m0 (acts acts' : list (@action attr)) :
  (forall a src, In a acts' -> In src (source_of a) -> exists b, In b acts /\ In src (source_of b)) ->
  (forall t src o zd, In (ASession t src o zd) acts' \/ In (AFirst t src o zd) acts' ->
     In (ASession t src o zd) acts \/ In (AFirst t src o zd) acts) ->
  (In AForce acts' -> In AForce acts) ->
  sound delta patch sha1 same loose fa m0 acts -> sound delta patch sha1 same loose fa m0 acts'.
Proof.
  intros H1 H2 H3 HS.
  assert (Hv : forall p n, seen fa m0 acts' p n -> seen fa m0 acts p n).
  { intros p n (src & [->|(a & Ha & Hs)] & Hn); [exists m0; auto|]. destruct (H1 a src Ha Hs) as (b & Hb & Hsb).
    exists src. split; [right; eauto|exact Hn]. }
  assert (Hb : forall p c, bytes_seen fa m0 acts' p c -> bytes_seen fa m0 acts p c).
  { intros p c [->|[a Ha]]; [now left|right; eauto]. }
  constructor.
  - intros p b n A B. apply (o_librsync _ _ _ _ _ _ _ _ HS p); auto.
  - intros p a b x y h A B. eapply (o_sha1 _ _ _ _ _ _ _ _ HS p); auto.
  - intros p c a c' a' A B. eapply (o_same _ _ _ _ _ _ _ _ HS p); eauto.
  - intros p c a c' a' A B. eapply (o_loose _ _ _ _ _ _ _ _ HS p); eauto.
  - apply (o_unhashed _ _ _ _ _ _ _ _ HS).
  - apply (o_found _ _ _ _ _ _ _ _ HS).
  - intros t src o zd p H. eapply (o_out _ _ _ _ _ _ _ _ HS). eauto.
  - intros H p c a c' a' b A B. eapply (o_forced _ _ _ _ _ _ _ _ HS (H3 H) p); eauto.
Qed.

Lemma careful_more {attr} (acts more : list (@action attr)) : careful acts -> (forall a, In a more -> a <> AForce) -> careful (acts ++ more).
Proof.
  intros HC Hm pre post E HK.
  assert (HX : exists post', acts = pre ++ AForce :: post').
  { clear HC HK. revert pre E. induction acts as [|a acts IH]; intros pre E.
    - exfalso. apply (Hm AForce); [|reflexivity]. cbn in E. rewrite E. apply in_app_iff. right. now left.
    - destruct pre as [|b pre]; cbn in E; injection E as -> E; [now exists acts|]. destruct (IH pre E) as [post' ->]. now exists post'. }
  destruct HX as [post' ->]. eauto.
Qed.

Lemma careful_plain {attr} (acts : list (@action attr)) : (forall a, In a acts -> a <> AForce) -> careful acts.
Proof. intros H pre post E _. exfalso. apply (H AForce); [|reflexivity]. rewrite E. apply in_app_iff. right. now left. Qed.
Lemma careful_nocut {attr} (acts : list (@action attr)) : (forall a rt u, In a acts -> a <> ARemoveKilled rt u) -> careful acts.
Proof. intros H pre post E (rt & u & HK). exfalso. apply (H (ARemoveKilled rt u) rt u); [|reflexivity]. rewrite E. apply in_app_iff. now left. Qed.

(** In every life: without a marker nothing is held and a first session is accepted.
    With one, it is that of the newest session held, every session held is restored as
    it was (C44), and a session at a later time is accepted.  With two, the last session
    was interrupted; this is noticed unless the increments directory is empty (see
    C06_empty_increments_refuted); a regress, whatever happens to be written during it,
    is possible, and when it is completed, every session held is restored, and the
    newest held is the one the marker is for.  There are never more.  A removal which was
    begun and killed counts as made; after one, regress --force must not be called as long
    as only one session is held ([careful], see C64_forced_after_killed_removal_refuted). *)
Theorem C64_every_moment :
  forall (attr : Type) delta patch sha1 (same loose : attr -> attr -> bool) deq,
  (forall x y, deq x y = true <-> x = y) ->
  forall fa m0 acts r, life delta patch sha1 same loose deq fa m0 acts r -> sound delta patch sha1 same loose fa m0 acts ->
  careful acts ->
  match markers (r_data r) with
  | [] => holds_after acts = [] /\
      forall t src o zd, 0 < t -> exists r', act delta patch sha1 same loose deq fa (AFirst t src o zd) r r'
  | [t1] => newest (holds_after acts) t1 /\ all_restored patch same (holds_after acts) r /\
      forall t src o zd, listing fst src -> t1 < t ->
        exists r', act delta patch sha1 same loose deq fa (ASession t src o zd) r r'
  | [a; b] => a <> b /\ newest (holds_after acts) (Z.min a b) /\
      (incs_used (r_data r) = true -> needs_regress (r_data r) false false = NRYes) /\
      forall used z,
        (exists good l prog, regress_plan patch sha1 loose used z r good l prog) /\
        forall good l prog, regress_plan patch sha1 loose used z r good l prog ->
          let r' := regress_full good l prog r in
          markers (r_data r') = [Z.min a b] /\ incs_used (r_data r') = used /\ all_restored patch same (holds_after acts) r'
  | _ => False
  end.
Proof.
  intros attr delta patch sha1 same loose deq deq_ok fa m0 acts r HL HS HC.
  destruct (life_state delta patch sha1 same loose deq deq_ok fa m0 acts HS acts r HL HC (fun a H => H)) as (recs & Hfit & Hok & Hj & _).
  exact (moment_jstate delta patch sha1 same loose deq deq_ok fa m0 acts HS (holds_after acts) recs r Hfit Hok Hj).
Qed.
Print Assumptions C64_every_moment.

(** From every moment, except for an interrupted session with an empty increments
    directory: a session at a later time can be made, after a regress if the last one was
    interrupted, and then everything held before and the new session are restored. *)
Theorem C64_always_a_way_on :
  forall (attr : Type) delta patch sha1 (same loose : attr -> attr -> bool) deq,
  (forall x y, deq x y = true <-> x = y) ->
  forall fa m0 acts r, life delta patch sha1 same loose deq fa m0 acts r -> careful acts ->
  (length (markers (r_data r)) = 2%nat -> incs_used (r_data r) = true) ->
  forall t src o zd z, listing fst src -> 0 < t -> (forall x, In x (holds_after acts) -> fst (fst x) < t) ->
  sound delta patch sha1 same loose fa m0 (acts ++ [ASession t src o zd]) ->
  exists more r', life delta patch sha1 same loose deq fa m0 (acts ++ more) r' /\
    holds_after (acts ++ more) = holds_after acts ++ [(t, src, o)] /\
    all_restored patch same (holds_after acts ++ [(t, src, o)]) r' /\
    (more = [AFirst t src o zd] \/ more = [ASession t src o zd] \/ more = [ARegress true z; ASession t src o zd]).
Proof.
  intros attr delta patch sha1 same loose deq deq_ok fa m0 acts r HL HC Hiu t src o zd z Hsrc Ht Hlater HS.
  set (last := ASession t src o zd) in *.
  assert (HCx : forall more, (forall a, In a more -> a <> AForce) -> careful (acts ++ more)).
  { intros more Hmore. now apply careful_more. }
  assert (HS0 : sound delta patch sha1 same loose fa m0 acts).
  { eapply sound_incl; [| | |exact HS].
    - intros a s Ha Hs. exists a. split; [apply in_app_iff; now left|exact Hs].
    - intros t' s' o' z' [H|H]; [left|right]; apply in_app_iff; now left.
    - intros H. apply in_app_iff. now left. }
  assert (HSx : forall more, (forall a, In a more -> a = last \/ a = AFirst t src o zd \/ exists u y, a = ARegress u y) -> 
     sound delta patch sha1 same loose fa m0 ((acts ++ [last]) ++ more)).
  { intros more Hmore. 
    assert (HSo : forall p, match o p with OIncFail _ | ORenameFail | OSpecialFail _ => False | _ => True end).
    { intros p. apply (o_out _ _ _ _ _ _ _ _ HS t src o zd p). left. apply in_app_iff. right. now left. }
    destruct HS as [A1 A2 A3 A4 A5 A6 A7 A8].
    assert (Hv : forall p n, seen fa m0 ((acts ++ [last]) ++ more) p n -> seen fa m0 (acts ++ [last]) p n).
    { intros p n (s & [->|(a & Ha & Hs)] & Hn); [exists m0; auto|]. exists s. split; [|exact Hn]. right.
      apply in_app_iff in Ha as [Ha|Ha]; [eauto|]. exists last. split; [apply in_app_iff; right; now left|].
      destruct (Hmore a Ha) as [->|[->|(u & y & ->)]]; [exact Hs|exact Hs|destruct Hs]. }
    assert (Hb : forall p c, bytes_seen fa m0 ((acts ++ [last]) ++ more) p c -> bytes_seen fa m0 (acts ++ [last]) p c).
    { intros p c [->|[a Ha]]; [now left|right; eauto]. }
    constructor; auto.
    - intros p b n B C. apply (A1 p); auto.
    - intros p a b x y h B C. eapply (A2 p); auto.
    - intros p c a c' a' B C. eapply (A3 p); eauto.
    - intros p c a c' a' B C. eapply (A4 p); eauto.
    - intros t' s' o' z' p [H|H]; apply in_app_iff in H as [H|H].
      + eapply A7. eauto.
      + destruct (Hmore _ H) as [E|[E|(u & y & E)]]; try discriminate. injection E as _ _ -> _. apply HSo.
      + eapply A7. eauto.
      + destruct (Hmore _ H) as [E|[E|(u & y & E)]]; try discriminate. injection E as _ _ -> _. apply HSo.
    - intros H p c a c' a' b B C. eapply (A8); eauto. apply in_app_iff in H as [H|H]; [exact H|].
      destruct (Hmore _ H) as [E|[E|(u & y & E)]]; discriminate. }
  (* the end: a session after [acts ++ pre], everything held unchanged *)
  assert (Hend : forall pre x r1 r2, (x = last \/ x = AFirst t src o zd) ->
     (forall a, In a pre -> exists u y, a = ARegress u y) ->
     life delta patch sha1 same loose deq fa m0 (acts ++ pre) r1 -> act delta patch sha1 same loose deq fa x r1 r2 ->
     length (markers (r_data r2)) = 1%nat ->
     life delta patch sha1 same loose deq fa m0 (acts ++ pre ++ [x]) r2 /\
     holds_after (acts ++ pre ++ [x]) = holds_after acts ++ [(t, src, o)] /\
     all_restored patch same (holds_after acts ++ [(t, src, o)]) r2).
  { intros pre x r1 r2 Hx Hpre HL1 Ha Hm.
    assert (HL2 : life delta patch sha1 same loose deq fa m0 (acts ++ pre ++ [x]) r2).
    { rewrite app_assoc. eapply L_act; [exact HL1| |exact Ha]. destruct Hx as [-> | ->]; repeat constructor; exact Hsrc. }
    assert (Hh : holds_after (acts ++ pre ++ [x]) = holds_after acts ++ [(t, src, o)]).
    { unfold holds_after. rewrite !fold_left_app. 
      assert (Hp : forall l, fold_left holding pre l = l).
      { clear - Hpre. induction pre as [|a pre IH]; intros l; [reflexivity|]. destruct (Hpre a (or_introl eq_refl)) as (u & y & ->).
        cbn. apply IH. intros b Hb. apply Hpre. now right. }
      rewrite Hp. destruct Hx as [-> | ->]; reflexivity. }
    split; [exact HL2|]. split; [exact Hh|].
    assert (HS2 : sound delta patch sha1 same loose fa m0 (acts ++ pre ++ [x])).
    { eapply sound_incl; [| | |apply (HSx (pre ++ [x]))].
      - intros a s Ha' Hs. exists a. split; [|exact Hs]. apply in_app_iff in Ha' as [H|H]; apply in_app_iff; [left; apply in_app_iff; now left|right; exact H].
      - intros t' s' o' z' [H|H]; [left|right]; (apply in_app_iff in H as [H|H]; apply in_app_iff; [left; apply in_app_iff; now left|right; exact H]).
      - intros H. apply in_app_iff in H as [H|H]; apply in_app_iff; [left; apply in_app_iff; now left|right; exact H].
      - intros a Ha'. apply in_app_iff in Ha' as [H|[<-|[]]]; [right; right; auto|]. destruct Hx; auto. }
    assert (HC2 : careful (acts ++ pre ++ [x])).
    { apply HCx. intros a Ha'. apply in_app_iff in Ha' as [H|[<-|[]]]; [destruct (Hpre a H) as (u & y & ->); discriminate|].
      destruct Hx as [-> | ->]; discriminate. }
    pose proof (C64_every_moment attr delta patch sha1 same loose deq deq_ok fa m0 _ r2 HL2 HS2 HC2) as HE.
    destruct (markers (r_data r2)) as [|m1 [|m2 ms]]; try discriminate Hm. rewrite Hh in HE. apply HE. }
  assert (Hone : forall acts' r1 x r2, x = last \/ x = AFirst t src o zd -> 
     life delta patch sha1 same loose deq fa m0 acts' r1 -> careful acts' -> act delta patch sha1 same loose deq fa x r1 r2 ->
     sound delta patch sha1 same loose fa m0 (acts' ++ [x]) -> length (markers (r_data r2)) = 1%nat).
  { intros acts' r1 x r2 Hx HL1 HC1 Ha HS1.
    assert (HL2 : life delta patch sha1 same loose deq fa m0 (acts' ++ [x]) r2).
    { eapply L_act; [exact HL1| |exact Ha]. destruct Hx as [-> | ->]; repeat constructor; exact Hsrc. }
    destruct (life_state delta patch sha1 same loose deq deq_ok fa m0 _ HS1 acts' r1 HL1 HC1) as (recs & Hfit & Hok & Hj & _).
    { intros a H. apply in_app_iff. now left. }
    rewrite (session_one delta patch sha1 same loose deq deq_ok fa m0 _ HS1 recs r1 x t src o zd r2 Hx); auto.
    apply in_app_iff. right. now left. }
  assert (HSy : forall pre x, (x = last \/ x = AFirst t src o zd) -> (forall a, In a pre -> exists u y, a = ARegress u y) ->
     sound delta patch sha1 same loose fa m0 ((acts ++ pre) ++ [x])).
  { intros pre x Hx Hpre. eapply sound_incl; [| | |apply (HSx (pre ++ [x]))].
    - intros a s Ha' Hs. exists a. split; [|exact Hs]. rewrite !in_app_iff in *. tauto.
    - intros t' s' o' z'. rewrite !in_app_iff. tauto.
    - rewrite !in_app_iff. tauto.
    - intros a Ha'. apply in_app_iff in Ha' as [H|[<-|[]]]; [right; right; auto|]. destruct Hx; auto. }
  pose proof (C64_every_moment attr delta patch sha1 same loose deq deq_ok fa m0 acts r HL HS0 HC) as HE.
  assert (Hnew : forall t1, newest (holds_after acts) t1 -> t1 < t).
  { intros t1 (l' & s & o' & E). apply (Hlater (t1, s, o')). rewrite E. apply in_app_iff. right. now left. }
  destruct (markers (r_data r)) as [|t1 [|t2 [|t3 ms]]] eqn:Em; [| | |destruct HE].
  - destruct HE as [H0 HE]. destruct (HE t src o zd Ht) as [r' Ha].
    assert (Hm : length (markers (r_data r')) = 1%nat).
    { eapply (Hone acts r (AFirst t src o zd)); eauto. specialize (HSy [] (AFirst t src o zd)). rewrite app_nil_r in HSy.
      apply HSy; [now right|intros ? []]. }
    exists [AFirst t src o zd], r'. 
    assert (HLn : life delta patch sha1 same loose deq fa m0 (acts ++ []) r) by now rewrite app_nil_r.
    destruct (Hend [] (AFirst t src o zd) r r' (or_intror eq_refl) (fun _ x => match x with end) HLn Ha Hm) as (A & B & C).
    split; [exact A|]. split; [exact B|]. split; [exact C|now left].
  - destruct HE as (Hnw & _ & HE). destruct (HE t src o zd Hsrc (Hnew _ Hnw)) as [r' Ha].
    assert (Hm : length (markers (r_data r')) = 1%nat).
    { eapply (Hone acts r last); eauto. }
    exists [last], r'. 
    assert (HLn : life delta patch sha1 same loose deq fa m0 (acts ++ []) r) by now rewrite app_nil_r.
    destruct (Hend [] last r r' (or_introl eq_refl) (fun _ x => match x with end) HLn Ha Hm) as (A & B & C).
    split; [exact A|]. split; [exact B|]. split; [exact C|right; now left].
  - destruct HE as (_ & Hnw & Hnr & HE). destruct (HE true z) as [(good & l & prog & Hp) HE2].
    specialize (HE2 good l prog Hp). cbn zeta in HE2. set (r1 := regress_full good l prog r) in *.
    destruct HE2 as (Hm1 & _ & _).
    assert (HL1 : life delta patch sha1 same loose deq fa m0 (acts ++ [ARegress true z]) r1).
    { eapply L_act; [exact HL|constructor|]. cbn. split; [apply Hnr, Hiu; reflexivity|]. exists good, l, prog. auto. }
    assert (Hreg : forall a, In a [@ARegress attr true z] -> exists u y, a = ARegress u y).
    { intros a [<-|[]]. eauto. }
    assert (HS1 : sound delta patch sha1 same loose fa m0 (acts ++ [ARegress true z])).
    { eapply sound_incl; [| | |exact HS0].
      - intros a s Ha Hs. apply in_app_iff in Ha as [Ha|[<-|[]]]; [eauto|destruct Hs].
      - intros t' s' o' z' H. rewrite !in_app_iff in H. destruct H as [[H|[H|[]]]|[H|[H|[]]]]; auto; discriminate.
      - intros H. rewrite in_app_iff in H. destruct H as [H|[H|[]]]; auto; discriminate. }
    assert (HC1 : careful (acts ++ [ARegress true z])).
    { apply HCx. intros a [<-|[]]. discriminate. }
    pose proof (C64_every_moment attr delta patch sha1 same loose deq deq_ok fa m0 _ r1 HL1 HS1 HC1) as HE1.
    rewrite Hm1 in HE1. destruct HE1 as (Hnw1 & _ & HE1). destruct (HE1 t src o zd Hsrc (Hnew _ Hnw)) as [r' Ha].
    assert (Hm : length (markers (r_data r')) = 1%nat).
    { eapply (Hone (acts ++ [ARegress true z]) r1 last); eauto. }
    exists [ARegress true z; last], r'.
    destruct (Hend [ARegress true z] last r1 r' (or_introl eq_refl) Hreg HL1 Ha Hm) as (A & B & C).
    split; [exact A|]. split; [exact B|]. split; [exact C|right; now right].
Qed.
Print Assumptions C64_always_a_way_on.

(** ** An example *)
(** interrupted first session into a directory with files, the first session, a second,
    an interrupted third, an interrupted regress, removal of the first, the regress and
    another session; and regress --force of a complete repository *)
Definition lsrc2 : @tree mattr :=
  [([], Dir (2, false)); ([bs "a"], Reg (bs "oneone") (2, false)); ([bs "c"], Reg (bs "x") (2, false))].
Definition lsrc3 : @tree mattr := [([], Dir (3, false)); ([bs "a"], Dir (3, false)); ([bs "a"; bs "n"], Reg (bs "new") (3, false))].
Definition lo : idx -> outcome mattr := fun _ => OOk.
Definition lkp : idx -> nat := fun p => (2 + length p)%nat.
Definition lnz : @dnoise (meta mattr) := mk_dn [[]] [] 1 true max_diff_chain.
Definition lr1 : @repo mattr := fget (gsession sdelta msha meqb mmeq 30 lsrc2 lo lnz fr).
Definition lr2 : @repo mattr := fget (gcrash sdelta msha meqb mmeq 40 lsrc3 lo fz lnz 4 lkp lr1).
Definition lf1 : @repo mattr := fget (gforce lr1).

Definition lacts0 : list (@action mattr) := [AFirstKilled ftry; AFirst 20 fsrc lo fnz; ASession 30 lsrc2 lo lnz].
Definition lacts1 : list (@action mattr) :=
  lacts0 ++ [AKilled 40 lsrc3 lo fz lnz 4 lkp; ARegressKilled true fz 3 lkp; ARemove 30 true].
Definition lacts2 : list (@action mattr) := lacts0 ++ [AForce].

Definition lkey (s : @tree mattr) : Z := match s with (_, Dir (k, _)) :: _ => k | _ => -1 end.
Lemma l_sound acts : (forall a s, In a acts -> In s (source_of a) -> In s [fold0; fsrc; lsrc2; lsrc3]) ->
  (forall t s o zd, In (ASession t s o zd) acts \/ In (AFirst t s o zd) acts -> o = lo) ->
  sound sdelta spatch msha meqb meqb mfound fold0 acts.
Proof.
  intros Hs Ho.
  assert (Hv : forall p c a, seen mfound fold0 acts p (Reg c a) -> exists s, In s [fold0; fsrc; lsrc2; lsrc3] /\
     fst a = lkey s /\ exists b, node_at s p = Reg c b).
  { intros p c a (s & Hin & Hn). exists s.
    assert (Hs4 : In s [fold0; fsrc; lsrc2; lsrc3]) by (destruct Hin as [->|(x & Hx & Hsx)]; [now left|eauto]).
    split; [exact Hs4|].
    assert (Hk : forall c b, node_at s p = Reg c b -> fst b = lkey s).
    { intros c0 b E. unfold node_at in E. destruct (find _ s) as [x|] eqn:Ef; [|discriminate]. apply find_some in Ef as [Ef _].
      cbn in Hs4. repeat (destruct Hs4 as [<-|Hs4]; [cbn in Ef; repeat (destruct Ef as [<-|Ef]; [cbn in E; try discriminate; injection E as _ <-; reflexivity|]); destruct Ef|]).
      destruct Hs4. }
    destruct (node_at s p) as [|c0 b| |] eqn:En.
    - destruct Hn; discriminate.
    - assert (Hx : c = c0 /\ fst a = fst b) by (destruct Hn as [H|H]; cbn in H; injection H as -> ->; auto).
      destruct Hx as [-> ->]. split; [eauto|eauto].
    - destruct Hn; discriminate.
    - destruct Hn; discriminate. }
  assert (Ht : forall p c a c' a', seen mfound fold0 acts p (Reg c a) -> seen mfound fold0 acts p (Reg c' a') -> fst a = fst a' -> c = c').
  { intros p c a c' a' H1 H2 E. destruct (Hv _ _ _ H1) as (s & I1 & K1 & b1 & N1), (Hv _ _ _ H2) as (s' & I2 & K2 & b2 & N2).
    assert (Es : s = s').
    { rewrite K1, K2 in E. cbn in I1, I2.
      repeat (destruct I1 as [<-|I1]; [repeat (destruct I2 as [<-|I2]; [try reflexivity; vm_compute in E; discriminate|]); destruct I2|]).
      destruct I1. }
    subst s'. congruence. }
  constructor.
  - intros p ? ? _ _. apply spatch_sdelta.
  - intros p a b x y h _ _. unfold msha. destruct (snd a), (snd b); try discriminate. intros [= <-] [= <-]. reflexivity.
  - intros p c a c' a' H1 H2 _ E. apply Z.eqb_eq in E. eauto.
  - intros p c a c' a' H1 H2 _ E. apply Z.eqb_eq in E. eauto.
  - intros a c _. apply Z.eqb_refl.
  - intros a. split; [apply Z.eqb_refl|reflexivity].
  - intros t s o zd p H. rewrite (Ho _ _ _ _ H). exact I.
  - intros _ p c a c' a' b H1 H2 _ E1 E2. apply Z.eqb_eq in E1, E2. apply (Ht p c a c' a'); auto. congruence.
Qed.

Lemma fget_some (x : option (@repo mattr)) : match x with Some _ => True | None => False end -> x = Some (fget x).
Proof. destruct x; [reflexivity|intros []]. Qed.

Example life_complete : life sdelta spatch msha meqb meqb mmeq mfound fold0 lacts0 lr1.
Proof.
  destruct first_runs as ((found & rc & Hs & Hc & E) & Hs1 & Hf & _). cbn in E. subst rc.
  assert (L : forall l : @tree mattr, sorted_by fst l -> listing fst l) by (intros l; apply listing_sorted).
  change lacts0 with ((([] ++ [AFirstKilled ftry]) ++ [AFirst 20 fsrc lo fnz]) ++ [ASession 30 lsrc2 lo lnz]).
  eapply L_act; [eapply L_act; [eapply L_act; [apply L_new| |]| |]| |].
  - constructor; [|constructor]. apply L. repeat constructor.
  - exists found. split; [exact Hs|exact Hc].
  - constructor; [|constructor]. apply L. repeat constructor.
  - exists ffound1. split; [exact Hs1|exact Hf].
  - constructor; [|constructor]. apply L. repeat constructor.
  - split; [vm_compute; discriminate|]. apply fget_some. vm_compute. exact I.
Qed.

Example life_interrupted : exists r, life sdelta spatch msha meqb meqb mmeq mfound fold0 lacts1 r /\
  length (markers (r_data r)) = 2%nat /\ incs_used (r_data r) = true /\ map (fun x => fst (fst x)) (holds_after lacts1) = [30].
Proof.
  assert (L : forall l : @tree mattr, sorted_by fst l -> listing fst l) by (intros l; apply listing_sorted).
  assert (H2 : life sdelta spatch msha meqb meqb mmeq mfound fold0 (lacts0 ++ [AKilled 40 lsrc3 lo fz lnz 4 lkp]) lr2).
  { eapply L_act; [apply life_complete| |].
    - constructor; [|constructor]. apply L. repeat constructor.
    - apply fget_some. vm_compute. exact I. }
  assert (HS2 : sound sdelta spatch msha meqb meqb mfound fold0 (lacts0 ++ [AKilled 40 lsrc3 lo fz lnz 4 lkp])).
  { apply l_sound.
    - intros a s Ha Hx. cbn in Ha. repeat (destruct Ha as [<-|Ha]; [cbn in Hx; destruct Hx as [<-|[]]; cbn; tauto|]). destruct Ha.
    - intros t s o zd [H|H]; cbn in H; repeat (destruct H as [H|H]; [try discriminate; injection H as _ _ <- _; reflexivity|]); destruct H. }
  assert (HC2 : careful (lacts0 ++ [AKilled 40 lsrc3 lo fz lnz 4 lkp])).
  { apply careful_plain. intros a Ha. cbn in Ha. repeat (destruct Ha as [<-|Ha]; [discriminate|]). destruct Ha. }
  pose proof (C64_every_moment mattr sdelta spatch msha meqb meqb mmeq mmeq_ok mfound fold0 _ _ H2 HS2 HC2) as HE.
  assert (Hm : markers (r_data lr2) = [40; 30]) by (vm_compute; reflexivity).
  assert (Hu : incs_used (r_data lr2) = true) by (vm_compute; reflexivity).
  rewrite Hm in HE. destruct HE as (_ & _ & Hn & HE). destruct (HE true fz) as [(good & l & prog & Hp) _].
  set (r3 := regress_part good l prog 3 lkp lr2).
  assert (H3 : life sdelta spatch msha meqb meqb mmeq mfound fold0 ((lacts0 ++ [AKilled 40 lsrc3 lo fz lnz 4 lkp]) ++ [ARegressKilled true fz 3 lkp]) r3).
  { eapply L_act; [exact H2|constructor|]. split; [apply Hn, Hu|]. exists good, l, prog. auto. }
  assert (Hd3 : markers (r_data r3) = [40; 30] /\ incs_used (r_data r3) = true).
  { destruct Hp as (bad & rc & Hw & Hl & _). assert (Hl' : Some l = regress_dops true (r_data lr2)) by now symmetry.
    assert (E : r_data r3 = run_dops (firstn (Nat.min 3 (length l - 1)) l) (r_data lr2)) by reflexivity.
    rewrite E. clear - Hl'. vm_compute in Hl'. injection Hl' as ->. vm_compute. auto. }
  destruct Hd3 as [Hm3 Hu3].
  exists (gremove 30 true r3). split; [|split; [|split]].
  - change lacts1 with (((lacts0 ++ [AKilled 40 lsrc3 lo fz lnz 4 lkp]) ++ [ARegressKilled true fz 3 lkp]) ++ [ARemove 30 true]).
    eapply L_act; [exact H3|constructor|]. split; [rewrite Hm3; discriminate|]. split; [|reflexivity].
    unfold last_good, two_markers. rewrite Hm3. cbn. lia.
  - cbn [gremove r_data remove_older_dd markers]. rewrite Hm3. reflexivity.
  - cbn [gremove r_data remove_older_dd incs_used]. now rewrite Hu3.
  - vm_compute. reflexivity.
Qed.

Example life_forced : life sdelta spatch msha meqb meqb mmeq mfound fold0 lacts2 lf1 /\
  markers (r_data lf1) = [20; 30] /\ map (fun x => fst (fst x)) (holds_after lacts2) = [20].
Proof.
  split; [|split; vm_compute; reflexivity].
  eapply L_act; [apply life_complete|constructor|]. split; [vm_compute; reflexivity|]. apply fget_some. vm_compute. exact I.
Qed.

Example life_sound : sound sdelta spatch msha meqb meqb mfound fold0 (lacts1 ++ [ASession 50 lsrc3 lo lnz]) /\
  sound sdelta spatch msha meqb meqb mfound fold0 lacts2 /\ listing fst lsrc3 /\
  (forall x, In x (holds_after lacts1) -> fst (fst x) < 50).
Proof.
  split; [|split; [|split]].
  1, 2: apply l_sound;
    [intros a s Ha Hx; cbn in Ha; repeat (destruct Ha as [<-|Ha]; [cbn in Hx; try (destruct Hx as [<-|[]]); try destruct Hx; cbn; tauto|]); destruct Ha
    |intros t s o zd [H|H]; cbn in H; repeat (destruct H as [H|H]; [try discriminate; injection H as _ _ <- _; reflexivity|]); destruct H].
  - apply listing_sorted. repeat constructor.
  - intros x Hx. cbn in Hx. destruct Hx as [<-|[]]. cbn. lia.
Qed.

(** ** Killed removals *)
(** What was begun is completed by calling it again: the repository is the same as if it
    had been removed at once. *)
Theorem C64_removal_repeated :
  forall (attr : Type) rt used (r r1 : @repo attr), cut_remove rt used r r1 ->
  forall used', let r2 := gremove rt used' r1 in let rd := gremove rt (used && used') r in
  markers (r_data r2) = markers (r_data rd) /\ mfiles (r_data r2) = mfiles (r_data rd) /\
  others (r_data r2) = others (r_data rd) /\ incs_used (r_data r2) = incs_used (r_data rd) /\
  forall p, r_path r2 p = r_path rd p.
Proof.
  intros attr rt used r r1 (H1 & H2 & H3 & H4 & H5) used'. cbn.
  rewrite (thinned_filter _ _ _ H1), (thinned_filter _ _ _ H2), (thinned_filter _ _ _ H3), H4, andb_assoc.
  repeat (split; [reflexivity|]). intros p. destruct (H5 p) as [E0 E]. apply thinned_filter in E. unfold remove_older, files_of, pst; cbn. now rewrite E0, E.
Qed.
Print Assumptions C64_removal_repeated.

(** the sessions of the example, removal of the first killed when one increment was
    deleted, and a third session after that *)
Definition lcut : @repo mattr :=
  mk_repo (r_data lr1) (fun p => (fst (r_path lr1 p), if idx_eqb p [bs "a"] then [] else snd (r_path lr1 p))).
Definition lactsk : list (@action mattr) := lacts0 ++ [ARemoveKilled 30 true].
Definition lr4 : @repo mattr := fget (gsession sdelta msha meqb mmeq 40 lsrc3 lo lnz lcut).
Definition lf4 : @repo mattr := fget (gforce lr4).

Lemma thinned_refl {A} (old : A -> bool) l : thinned old l l.
Proof. induction l; constructor; auto. Qed.
Lemma lcut_ok : cut_remove 30 true lr1 lcut.
Proof.
  unfold cut_remove. split; [apply thinned_refl|]. split; [apply thinned_refl|]. split; [apply thinned_refl|]. split; [vm_compute; reflexivity|].
  intros p. split; [reflexivity|]. cbn [lcut r_path snd]. destruct (idx_eqb p [bs "a"]) eqn:E; [|apply thinned_refl].
  apply idx_eqb_eq in E as ->. vm_compute. apply Th_del; [reflexivity|constructor].
Qed.
Example life_removal_killed : life sdelta spatch msha meqb meqb mmeq mfound fold0 lactsk lcut /\
  map mf_time (mfiles (r_data lcut)) = [30; 20] /\ map (fun x => fst (fst x)) (holds_after lactsk) = [30] /\
  snd (r_path lr1 [bs "a"]) <> [] /\
  life sdelta spatch msha meqb meqb mmeq mfound fold0 (lactsk ++ [ASession 40 lsrc3 lo lnz]) lr4 /\
  life sdelta spatch msha meqb meqb mmeq mfound fold0 ((lactsk ++ [ASession 40 lsrc3 lo lnz]) ++ [AForce]) lf4 /\
  careful ((lactsk ++ [ASession 40 lsrc3 lo lnz]) ++ [AForce]) /\
  sound sdelta spatch msha meqb meqb mfound fold0 ((lactsk ++ [ASession 40 lsrc3 lo lnz]) ++ [AForce]).
Proof.
  assert (H1 : life sdelta spatch msha meqb meqb mmeq mfound fold0 lactsk lcut).
  { eapply L_act; [apply life_complete|constructor|]. split; [vm_compute; discriminate|]. split; [vm_compute; discriminate|]. apply lcut_ok. }
  split; [exact H1|]. split; [vm_compute; reflexivity|]. split; [vm_compute; reflexivity|]. split; [vm_compute; discriminate|].
  assert (H2 : life sdelta spatch msha meqb meqb mmeq mfound fold0 (lactsk ++ [ASession 40 lsrc3 lo lnz]) lr4).
  { eapply L_act; [exact H1| |].
    - constructor; [|constructor]. apply listing_sorted. repeat constructor.
    - split; [vm_compute; discriminate|]. apply fget_some. vm_compute. exact I. }
  split; [exact H2|]. split; [|split].
  - eapply L_act; [exact H2|constructor|]. split; [vm_compute; reflexivity|]. apply fget_some. vm_compute. exact I.
  - intros pre post E _.
    assert (Ep : pre = lactsk ++ [ASession 40 lsrc3 lo lnz]).
    { cbn in E. do 5 (destruct pre as [|? pre]; [discriminate|]; injection E as <- E). destruct pre as [|? pre]; [reflexivity|].
      exfalso. injection E as _ E. now destruct pre. }
    rewrite Ep. vm_compute. auto.
  - apply l_sound;
    [intros a s Ha Hx; cbn in Ha; repeat (destruct Ha as [<-|Ha]; [cbn in Hx; try (destruct Hx as [<-|[]]); try destruct Hx; cbn; tauto|]); destruct Ha
    |intros t s o zd [H|H]; cbn in H; repeat (destruct H as [H|H]; [try discriminate; injection H as _ _ <- _; reflexivity|]); destruct H].
Qed.

(** Without [careful]: only the session at 30 is held, but regress --force takes what is
    left of the one at 20 for a session and goes back to that, and the repository then
    restores as of 20 what was never backed up then. *)
Definition lf5 : @repo mattr := fget (gforce lcut).
Theorem C64_forced_after_killed_removal_refuted :
  exists acts r, life sdelta spatch msha meqb meqb mmeq mfound fold0 acts r /\
    sound sdelta spatch msha meqb meqb mfound fold0 acts /\
    acts = lacts0 ++ [ARemoveKilled 30 true; AForce; ARegress true fz] /\
    map (fun x => fst (fst x)) (holds_after (lacts0 ++ [ARemoveKilled 30 true])) = [30] /\
    markers (r_data r) = [20] /\
    node_at fsrc [bs "a"] = Reg (bs "one") (1, false) /\
    (exists lt a, restore_tree spatch 20 [] r = Some lt /\ node_at lt [bs "a"] = Reg (bs "oneone") a) /\
    restore_tree spatch 30 [] r = None.
Proof.
  destruct life_removal_killed as (H1 & _).
  assert (H2 : life sdelta spatch msha meqb meqb mmeq mfound fold0 (lactsk ++ [AForce]) lf5).
  { eapply L_act; [exact H1|constructor|]. split; [vm_compute; reflexivity|]. apply fget_some. vm_compute. exact I. }
  set (l := match regress_dops true (r_data lf5) with Some l => l | None => [] end).
  set (recs := match meta_at_time 20 [] (mfiles (run_dops (firstn (length l - 2) l) (r_data lf5))) with RdOk x => x | _ => [] end).
  set (prog := fun p => regress_prog spatch msha meqb 20 30 (find_md p recs) (fz p) (pst (Some 20) (find_md p recs) (r_path lf5 p))).
  assert (Hmd : forall p m, find_md p recs = Some m -> In p [[]; [bs "a"]; [bs "b"]; [bs "p"]]).
  { intros p m E. unfold find_md in E. destruct (find (fun x => idx_eqb (fst x) p) recs) as [[q x]|] eqn:Ef; [|discriminate].
    apply find_some in Ef as [Ef Eq]. apply idx_eqb_eq in Eq. cbn in Eq. subst q. apply (in_map fst) in Ef. vm_compute in Ef. exact Ef. }
  assert (HP : regress_plan spatch msha meqb true fz lf5 20 l prog).
  { exists 30, recs. split; [vm_compute; reflexivity|]. split; [vm_compute; reflexivity|]. split; [vm_compute; reflexivity|]. split; [reflexivity|].
    intros p. unfold prog. destruct (find_md p recs) as [m|] eqn:E.
    - pose proof (Hmd p m E) as Hin. cbn in Hin. rewrite <- E. clear E. destruct Hin as [<-|[<-|[<-|[<-|[]]]]]; vm_compute; discriminate.
    - discriminate. }
  exists (lacts0 ++ [ARemoveKilled 30 true; AForce; ARegress true fz]), (regress_full 20 l prog lf5).
  split; [|split; [|split; [reflexivity|split; [vm_compute; reflexivity|split; [vm_compute; reflexivity|split; [reflexivity|split]]]]]].
  - change (lacts0 ++ [ARemoveKilled 30 true; AForce; ARegress true fz]) with ((lactsk ++ [AForce]) ++ [ARegress true fz]).
    eapply L_act; [exact H2|constructor|]. split; [vm_compute; reflexivity|]. exists 20, l, prog. split; [exact HP|reflexivity].
  - apply l_sound;
    [intros a s Ha Hx; cbn in Ha; repeat (destruct Ha as [<-|Ha]; [cbn in Hx; try (destruct Hx as [<-|[]]); try destruct Hx; cbn; tauto|]); destruct Ha
    |intros t s o zd [H|H]; cbn in H; repeat (destruct H as [H|H]; [try discriminate; injection H as _ _ <- _; reflexivity|]); destruct H].
  - exists (match restore_tree spatch 20 [] (regress_full 20 l prog lf5) with Some x => x | None => [] end), (1, true).
    split; vm_compute; reflexivity.
  - vm_compute. reflexivity.
Qed.
Print Assumptions C64_forced_after_killed_removal_refuted.
Example life_careful : careful (lacts1 ++ [ASession 50 lsrc3 lo lnz]) /\ careful lacts2.
Proof.
  split; apply careful_nocut; intros a rt u H; cbn in H; repeat (destruct H as [<-|H]; [discriminate|]); destruct H.
Qed.

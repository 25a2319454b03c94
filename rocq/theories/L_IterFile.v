(** * Lemmas about M_IterFile: the receiver simulates the specification *)
From Coq Require Import List NArith Bool Lia.
From Verif Require Import Base L_Base M_Conn L_Conn M_IterFile S_IterFile.
Import List ListNotations.

Section Sim.
Context {Ob R E C : Type}.
Notation item := (@item Ob R E C).
Notation fend := (@fend E C).
Notation obs := (@obs Ob R E C).
Notation sender := (@sender Ob R E C).
Notation recv := (@recv Ob R E C).
Notation pobj := (@pobj Ob R E C).
Notation sfile := (@sfile E C).
Notation gres := (@gres Ob R E C).
Variable pickle : pobj -> bytes.
Variable unpickle : bytes -> option pobj.
Hypothesis pickle_ok : forall p, unpickle (pickle p) = Some p.

(** messages *)
Inductive pay := PL (p : pobj) | RAW (d : bytes).
Local Notation amsg := (ascii * pay)%type.
Definition pdata (x : pay) : bytes := match x with PL p => pickle p | RAW d => d end.
Definition enc1 (m : amsg) : bytes := frame_of (fst m) (pdata (snd m)).
Definition enc (ms : list amsg) : bytes := flat_map enc1 ms.
Definition okm (m : amsg) : Prop :=
  fits (pdata (snd m)) /\ mem_byte (fst m) (bs "oerh") = match snd m with PL _ => true | RAW _ => false end.
Definition gres_of (m : amsg) : gres := match snd m with PL p => GObj (fst m) p | RAW d => GRaw (fst m) d end.

Fixpoint fmsgs (letter : ascii) (bl : list bytes) (e : fend) : list amsg :=
  match bl with
  | [] => match e with
          | FErr x => [("e"%char, PL (PExc x))]
          | FEof c => [(letter, RAW []); ("h"%char, PL (PClose c))]
          end
  | b :: bl' => (letter, RAW b) :: fmsgs "c"%char bl' e
  end.
Definition ofmsgs (letter : ascii) (f : option sfile) : list amsg :=
  match f with Some f => fmsgs letter (f_blocks f) (f_end f) | None => [] end.
Definition imsgs (i : item) : list amsg :=
  match i with
  | IObj o => [("o"%char, PL (PObj o))]
  | IFlush => []
  | IFlushRepeat => [("o"%char, PL PFlushRepeat)]
  | IRorp r None => [("r"%char, PL (PRorp r false))]
  | IRorp r (Some f) => ("r"%char, PL (PRorp r true)) :: ofmsgs "f"%char (Some f)
  end.
Definition items (it : list item) : list amsg := flat_map imsgs it.
Definition body (s : sender) : list amsg :=
  ofmsgs "c"%char (s_cur s) ++ ofmsgs "f"%char (s_next s) ++ items (s_iter s).
Definition zmsg : amsg := ("z"%char, RAW []).

Definition gfile (f : option sfile) : Prop := match f with Some f => good_file pickle f | None => True end.
Record good (s : sender) : Prop := {
  g_cur : gfile (s_cur s); g_next : gfile (s_next s);
  g_it : forall i, In i (s_iter s) -> good_item pickle i;
  g_b : (0 < s_maxb s)%N; g_r : (0 < s_maxr s)%nat }.

Lemma enc_app l1 l2 : enc (l1 ++ l2) = enc l1 ++ enc l2.
Proof. apply flat_map_app. Qed.

Lemma add_ok s s' go : good s -> add_to_buffer pickle s = (s', go) ->
  exists ms, s_buf s' = s_buf s ++ enc ms /\ good s' /\
    ((body s = ms ++ body s' /\ (work s' < work s)%nat /\
      (ms <> [] \/ (go = false /\ s_cur s = None /\ s_next s = None))) \/
     (go = false /\ ms = [zmsg] /\ body s = [] /\ body s' = [] /\ work s' = work s)).
Proof using.
  intros [G1 G2 G3 G4 G5] H. unfold add_to_buffer in H. unfold body, work.
  destruct (s_cur s) as [f|] eqn:Ec.
  - unfold add_from_file in H. destruct f as [bl e]. cbn [f_blocks f_end] in H. cbn [gfile] in G1.
    destruct G1 as [Gb Ge]. cbn [f_blocks f_end] in *.
    destruct bl as [|b bl].
    + destruct e as [c|x]; injection H as <- <-; eexists; (split; [cbn [s_buf]; rewrite <- app_nil_r|]).
      * instantiate (1 := [("c"%char, RAW []); ("h"%char, PL (PClose c))]). cbn. now rewrite !app_nil_r.
      * split; [constructor; auto; exact I|]. left. cbn. split; [reflexivity|]. split; [lia|]. left. discriminate.
      * instantiate (1 := [("e"%char, PL (PExc x))]). cbn. now rewrite !app_nil_r.
      * split; [constructor; auto; exact I|]. left. cbn. split; [reflexivity|]. split; [lia|]. left. discriminate.
    + destruct (Gb b (or_introl eq_refl)) as [Hb _].
      destruct (Nat.eqb_spec (length b) 0) as [E0|_]; [destruct b; [congruence|discriminate]|].
      injection H as <- <-. exists [("c"%char, RAW b)]. cbn [s_buf enc flat_map enc1 fst snd pdata]. rewrite app_nil_r.
      split; [reflexivity|]. split.
      * constructor; auto. split; [|exact Ge]. intros b' Hb'. apply Gb. now right.
      * left. cbn. split; [reflexivity|]. split; [lia|]. left. discriminate.
  - destruct (s_next s) as [f|] eqn:En.
    + unfold add_from_file in H. destruct f as [bl e]. cbn [f_blocks f_end] in H. cbn [gfile] in G2.
      destruct G2 as [Gb Ge]. cbn [f_blocks f_end] in *.
      destruct bl as [|b bl].
      * destruct e as [c|x]; injection H as <- <-; eexists; (split; [cbn [s_buf]; rewrite <- app_nil_r|]).
        -- instantiate (1 := [("f"%char, RAW []); ("h"%char, PL (PClose c))]). cbn. now rewrite !app_nil_r.
        -- split; [constructor; auto; exact I|]. left. cbn. split; [reflexivity|]. split; [lia|]. left. discriminate.
        -- instantiate (1 := [("e"%char, PL (PExc x))]). cbn. now rewrite !app_nil_r.
        -- split; [constructor; auto; exact I|]. left. cbn. split; [reflexivity|]. split; [lia|]. left. discriminate.
      * destruct (Gb b (or_introl eq_refl)) as [Hb _].
        destruct (Nat.eqb_spec (length b) 0) as [E0|_]; [destruct b; [congruence|discriminate]|].
        injection H as <- <-. exists [("f"%char, RAW b)]. cbn [s_buf enc flat_map enc1 fst snd pdata]. rewrite app_nil_r.
        split; [reflexivity|]. split.
        -- constructor; cbn; auto. split; [|exact Ge]. intros b' Hb'. apply Gb. now right.
        -- left. cbn. split; [reflexivity|]. split; [lia|]. left. discriminate.
    + destruct (s_iter s) as [|i it] eqn:Ei.
      * injection H as <- <-. exists [zmsg]. cbn. split; [reflexivity|].
        split; [constructor; auto; intros i []|]. right. auto.
      * assert (Gi := G3 i (or_introl eq_refl)).
        assert (Gt : forall j, In j it -> good_item pickle j) by (intros j Hj; apply G3; now right).
        exists (match i with IRorp r (Some f) => [("r"%char, PL (PRorp r true))] | _ => imsgs i end).
        destruct i as [o| | |r [f|]]; injection H as <- <-; cbn; rewrite ?app_nil_r;
          (split; [reflexivity|]); (split; [constructor; cbn; auto; try exact I; try apply Gi|]); left;
          (split; [reflexivity|]); (split; [lia|]); auto; left; discriminate.
Qed.

Lemma read_ok fuel : forall s, good s -> (work s < fuel)%nat ->
  exists ms, s_buf (read_loop pickle fuel s) = s_buf s ++ enc ms /\ good (read_loop pickle fuel s) /\
    (work (read_loop pickle fuel s) <= work s)%nat /\
    (body s = ms ++ body (read_loop pickle fuel s) \/
     (ms = body s ++ [zmsg] /\ body (read_loop pickle fuel s) = [])).
Proof using.
  induction fuel as [|fuel IH]; intros s G Hf; [lia|]. cbn [read_loop].
  destruct ((N.of_nat (length (s_buf s)) <? s_maxb s)%N && Nat.ltb (s_rps s) (s_maxr s)).
  - destruct (add_to_buffer pickle s) as [s1 go] eqn:Ea.
    destruct (add_ok s s1 go G Ea) as (ms1 & E1 & G1 & [(B1 & W1 & M1)|(-> & -> & B1 & B2 & W1)]).
    + destruct go.
      * destruct (IH s1 G1 ltac:(lia)) as (ms2 & E2 & G2 & W2 & H2). exists (ms1 ++ ms2).
        rewrite E2, E1, enc_app, app_assoc. split; [reflexivity|]. split; [assumption|]. split; [lia|].
        destruct H2 as [H2|[H2 H3]].
        -- left. now rewrite B1, H2, app_assoc.
        -- right. rewrite B1, H2, app_assoc. auto.
      * exists ms1. split; [assumption|]. split; [assumption|]. split; [lia|]. left. assumption.
    + exists [zmsg]. split; [assumption|]. split; [assumption|]. split; [lia|]. right. now rewrite B1.
  - exists []. cbn. rewrite app_nil_r. split; [reflexivity|]. split; [assumption|]. split; [lia|]. left. reflexivity.
Qed.

Definition idle (s : sender) : Prop := s_buf s = [] /\ s_rps s = 0%nat.

Lemma sread_ok s chunk s' : good s -> idle s -> sread pickle s = (chunk, s') ->
  exists ms, chunk = enc ms /\ good s' /\ idle s' /\ (work s' <= work s)%nat /\
    (body s = ms ++ body s' \/ (ms = body s ++ [zmsg] /\ body s' = [])) /\
    (ms = [] -> s_cur s = None /\ s_next s = None /\ (work s' < work s)%nat).
Proof using.
  intros G [I1 I2] H. unfold sread in H. injection H as <- <-.
  assert (Hwork : forall s0 : sender, work (mk_snd (s_iter s0) [] (s_cur s0) (s_next s0) 0 (s_maxb s0) (s_maxr s0)) = work s0) by reflexivity.
  assert (Hbody : forall s0 : sender, body (mk_snd (s_iter s0) [] (s_cur s0) (s_next s0) 0 (s_maxb s0) (s_maxr s0)) = body s0) by reflexivity.
  rewrite Hwork, Hbody.
  assert (Hgood : forall s0 : sender, good s0 -> good (mk_snd (s_iter s0) [] (s_cur s0) (s_next s0) 0 (s_maxb s0) (s_maxr s0))).
  { intros s0 [A1 A2 A3 A4 A5]. now constructor. }
  cbn [read_loop]. rewrite I1, I2. cbn [length].
  change (N.of_nat 0) with 0%N. rewrite (proj2 (N.ltb_lt 0 (s_maxb s)) (g_b _ G)), (proj2 (Nat.ltb_lt 0 (s_maxr s)) (g_r _ G)). cbn [andb].
  destruct (add_to_buffer pickle s) as [s1 go] eqn:Ea.
  destruct (add_ok s s1 go G Ea) as (ms1 & E1 & G1 & [(B1 & W1 & M1)|(-> & -> & B1 & B2 & W1)]); rewrite I1 in E1; cbn [app] in E1.
  - destruct go.
    + destruct (read_ok (work s) s1 G1 W1) as (ms2 & E2 & G2 & W2 & H2). exists (ms1 ++ ms2).
      rewrite E2, E1, enc_app. split; [reflexivity|]. split; [now apply Hgood|]. split; [split; reflexivity|]. split; [lia|]. split.
      * destruct H2 as [H2|[H2 H3]]; [left; now rewrite B1, H2, app_assoc|right; rewrite B1, H2, app_assoc; auto].
      * intros En. apply app_eq_nil in En as [-> ->]. destruct M1 as [M1|(M1 & _)]; [congruence|discriminate].
    + exists ms1. split; [assumption|]. split; [now apply Hgood|]. split; [split; reflexivity|]. split; [lia|].
      split; [now left|]. intros ->. destruct M1 as [M1|(_ & M2 & M3)]; [congruence|]. auto.
  - exists [zmsg]. split; [assumption|]. split; [now apply Hgood|]. split; [split; reflexivity|]. split; [lia|].
    split; [right; now rewrite B1|discriminate].
Qed.

(** ** Receiver *)
Definition okms (ms : list amsg) : Prop := forall m, In m ms -> okm m.

Lemma fmsgs_ok letter bl e : (letter = "c"%char \/ letter = "f"%char) -> good_file pickle (mk_sf bl e) -> okms (fmsgs letter bl e).
Proof using.
  intros Hl [Hb He]. cbn [f_blocks f_end] in *. revert letter Hl. induction bl as [|b bl IH]; intros letter Hl m Hm; cbn in Hm.
  - destruct e as [c|x]; cbn in Hm.
    + destruct Hm as [<-|[<-|[]]]; split; cbn; auto; [unfold fits; cbn; lia|]. destruct Hl as [-> | ->]; reflexivity.
    + destruct Hm as [<-|[]]. split; cbn; auto.
  - destruct Hm as [<-|Hm].
    + split; cbn; [apply Hb; now left|]. destruct Hl as [-> | ->]; reflexivity.
    + apply (IH (fun b' Hb' => Hb b' (or_intror Hb')) "c"%char); auto.
Qed.
Lemma items_ok it : (forall i, In i it -> good_item pickle i) -> okms (items it).
Proof using.
  intros H m Hm. unfold items in Hm. apply in_flat_map in Hm as (i & Hi & Hm). specialize (H i Hi).
  destruct i as [o| | |r [f|]]; cbn in *.
  - destruct Hm as [<-|[]]. split; [cbn; auto|reflexivity].
  - destruct Hm.
  - destruct Hm as [<-|[]]. split; [cbn; auto|reflexivity].
  - destruct H as [H1 H2]. destruct Hm as [<-|Hm]; [split; [cbn; auto|reflexivity]|]. destruct f as [bl e]. apply (fmsgs_ok "f"%char bl e); auto.
  - destruct H as [H1 H2]. destruct Hm as [<-|[]]. split; [cbn; auto|reflexivity].
Qed.
Lemma body_ok s : good s -> okms (body s).
Proof using.
  intros [G1 G2 G3 _ _] m Hm. unfold body in Hm. rewrite !in_app_iff in Hm. destruct Hm as [Hm|[Hm|Hm]].
  - destruct (s_cur s) as [[bl e]|]; [|destruct Hm]. apply (fmsgs_ok "c"%char bl e); auto.
  - destruct (s_next s) as [[bl e]|]; [|destruct Hm]. apply (fmsgs_ok "f"%char bl e); auto.
  - eapply items_ok; eauto.
Qed.

Definition pending (r : recv) (P : list amsg) : Prop :=
  exists ms, r_buf r = enc ms /\ okms ms /\ good (r_src r) /\ idle (r_src r) /\
    (P = ms ++ body (r_src r) \/ (ms = P ++ [zmsg] /\ body (r_src r) = [])).

Lemma enc1_length m : (8 <= length (enc1 m))%nat.
Proof using. unfold enc1, frame_of. rewrite !app_length, be_length. cbn. lia. Qed.
Lemma enc_nil ms : enc ms = [] -> ms = [].
Proof using.
  destruct ms as [|m ms]; [reflexivity|]. cbn. intros H. pose proof (enc1_length m). destruct (enc1 m); [cbn in *; lia|discriminate].
Qed.
Lemma enc_length ms : (length ms <= length (enc ms))%nat.
Proof using.
  induction ms as [|m ms IH]; [cbn; lia|]. change (enc (m :: ms)) with (enc1 m ++ enc ms). cbn [length]. rewrite app_length. pose proof (enc1_length m). lia.
Qed.
Lemma fmsgs_length letter bl e : (length bl < length (fmsgs letter bl e) <= 2 + length bl)%nat.
Proof using. revert letter. induction bl as [|b bl IH]; intros letter; cbn; [destruct e; cbn; lia|]. specialize (IH "c"%char). lia. Qed.
Lemma body_length s : (length (body s) <= 2 * work s)%nat.
Proof using.
  unfold body, work. rewrite !app_length.
  assert (Hf : forall letter f, (length (ofmsgs letter f) <= 2 * file_work f)%nat).
  { intros letter [[bl e]|]; cbn [ofmsgs file_work f_blocks f_end]; [pose proof (fmsgs_length letter bl e); lia|cbn; lia]. }
  pose proof (Hf "c"%char (s_cur s)). pose proof (Hf "f"%char (s_next s)).
  assert (Hi : (length (items (s_iter s)) <= 2 * fold_right (fun i n => (item_work i + n)%nat) 0%nat (s_iter s))%nat).
  { induction (s_iter s) as [|i it IH]; cbn; [lia|]. rewrite app_length.
    assert (length (imsgs i) <= 2 * item_work i)%nat.
    { destruct i as [o| | |r [f|]]; cbn -[Nat.mul]; try lia. pose proof (Hf "f"%char (Some f)). cbn -[Nat.mul] in *. lia. }
    fold (items it). lia. }
  lia.
Qed.
Lemma pending_length r P : pending r P -> (length P <= length (r_buf r) + 2 * work (r_src r))%nat.
Proof using.
  intros (ms & -> & _ & _ & _ & [-> |[-> _]]).
  - rewrite app_length. pose proof (enc_length ms). pose proof (body_length (r_src r)). lia.
  - pose proof (enc_length (P ++ [zmsg])). rewrite app_length in *. lia.
Qed.
Lemma pending_ok r P : pending r P -> okms P.
Proof using.
  intros (ms & _ & H1 & H2 & _ & [-> |[-> _]]) m Hm.
  - apply in_app_iff in Hm as [Hm|Hm]; [auto|]. eapply body_ok; eauto.
  - apply H1, in_app_iff. auto.
Qed.

(** reading the first message of a non-empty buffer *)
Lemma decode m ms src inn f : okm m ->
  rget pickle unpickle (mk_rcv src (enc (m :: ms)) inn f) = (gres_of m, mk_rcv src (enc ms) inn f).
Proof using pickle_ok.
  intros [Hf Hm]. destruct m as [ty x]. cbn [fst snd] in *. unfold rget. cbn [r_buf r_src r_in r_file].
  change (enc ((ty, x) :: ms)) with (ty :: ((be 7 (N.of_nat (length (pdata x))) ++ pdata x) ++ enc ms)).
  set (L := be 7 (N.of_nat (length (pdata x)))). assert (HL : length L = 7%nat) by apply be_length.
  rewrite <- app_assoc.
  destruct (Nat.ltb_spec (length (ty :: L ++ pdata x ++ enc ms)) 8) as [Hlt|_].
  { cbn in Hlt. rewrite app_length in Hlt. lia. }
  assert (F1 : forall X, firstn 7 (L ++ X) = L).
  { intros X. rewrite firstn_app, HL, Nat.sub_diag, firstn_O, app_nil_r. apply firstn_all2. lia. }
  assert (F2 : forall X, skipn 7 (L ++ X) = X).
  { intros X. rewrite skipn_app, HL, Nat.sub_diag, skipn_all2 by lia. reflexivity. }
  rewrite F1, F2. unfold L. rewrite b2i_be by exact Hf. rewrite Nat2N.id.
  rewrite firstn_app, firstn_all, Nat.sub_diag, firstn_O, app_nil_r.
  rewrite skipn_app, skipn_all, Nat.sub_diag. cbn [skipn app].
  rewrite Hm. destruct x as [p|d]; cbn [pdata gres_of snd fst]; [now rewrite pickle_ok|reflexivity].
Qed.

(** types of messages that are part of a file *)
Definition infile (ty : ascii) : bool := mem_byte ty (bs "cfeh").

Lemma items_head it m P : items it = m :: P -> infile (fst m) = false.
Proof using.
  induction it as [|i it IH]; cbn; [discriminate|]. destruct i as [o| | |r [f|]]; cbn; try (intros [= <- _]; reflexivity). exact IH.
Qed.

Definition decreases (r' r : recv) := (r_buf r' = [] /\ r_buf r = [] /\ work (r_src r') < work (r_src r))%nat.

Lemma rget_cons r m P : pending r (m :: P) ->
  (exists r', rget pickle unpickle r = (gres_of m, r') /\ pending r' P /\ r_in r' = r_in r /\ r_file r' = r_file r) \/
  (exists r', rget pickle unpickle r = (GNone, r') /\ pending r' (m :: P) /\ r_in r' = r_in r /\ r_file r' = r_file r /\
     infile (fst m) = false /\ decreases r' r).
Proof using pickle_ok.
  intros HP. assert (Hm : okm m) by (apply (pending_ok r (m :: P) HP); now left).
  destruct HP as (ms & Eb & Hok & G & HI & HB). destruct r as [src buf inn f]. cbn [r_buf r_src r_in r_file] in *.
  destruct ms as [|m0 ms].
  - cbn in Eb. destruct HB as [HB|[HB _]]; [|discriminate]. cbn [app] in HB.
    unfold rget. cbn [r_buf r_src r_in r_file]. rewrite Eb.
    destruct (sread pickle src) as [chunk src'] eqn:Es.
    destruct (sread_ok src chunk src' G HI Es) as (ms & -> & G' & HI' & W & HB' & Hnil).
    destruct ms as [|m1 ms].
    + right. cbn [enc flat_map]. exists (mk_rcv src' [] inn f). split; [reflexivity|].
      destruct HB' as [HB'|[HB' _]]; [|destruct (body src); discriminate]. cbn [app] in HB'. cbn [r_in r_file].
      split; [|split; [reflexivity|split; [reflexivity|split]]].
      * exists []. cbn. split; [reflexivity|]. split; [intros ? []|]. split; [assumption|]. split; [assumption|]. left. congruence.
      * destruct (Hnil eq_refl) as (E1 & E2 & _). unfold body in HB. rewrite E1, E2 in HB. cbn [ofmsgs app] in HB.
        symmetry in HB. eapply items_head; eauto.
      * unfold decreases. cbn. destruct (Hnil eq_refl) as (_ & _ & W'). auto.
    + left.
      assert (m1 = m) as ->.
      { destruct HB' as [HB'|[HB' _]]; rewrite <- HB in HB'; cbn in HB'; congruence. }
      pose proof (decode m ms src' inn f Hm) as HD. unfold rget in HD. cbn [r_buf r_src r_in r_file] in HD.
      destruct (enc (m :: ms)) as [|c0 l0] eqn:Ee; [apply enc_nil in Ee; discriminate|].
      rewrite HD. exists (mk_rcv src' (enc ms) inn f). split; [reflexivity|]. split; [|auto].
      exists ms. cbn [r_buf r_src]. split; [reflexivity|].
      assert (Hoks : okms ms).
      { intros x Hx. destruct HB' as [HB'|[HB' _]].
        - apply (body_ok src G). rewrite HB'. right. apply in_app_iff. auto.
        - assert (Hi : In x (body src ++ [zmsg])) by (rewrite <- HB'; now right).
          apply in_app_iff in Hi as [Hi|[<-|[]]]; [now apply (body_ok src G)|]. split; cbn; [unfold fits; cbn; lia|reflexivity]. }
      split; [assumption|]. split; [assumption|]. split; [assumption|].
      destruct HB' as [HB'|[HB' HB2]]; rewrite <- HB in HB'; cbn in HB'; injection HB' as HB'; auto.
  - assert (m0 = m) as ->.
    { destruct HB as [HB|[HB _]]; cbn in HB; congruence. }
    left. rewrite Eb, (decode m ms src inn f Hm).
    exists (mk_rcv src (enc ms) inn f). split; [reflexivity|]. split; [|auto].
    exists ms. cbn [r_buf r_src]. split; [reflexivity|]. split; [intros x Hx; apply Hok; now right|].
    split; [assumption|]. split; [assumption|].
    destruct HB as [HB|[HB HB2]]; cbn in HB; injection HB as HB; auto.
Qed.

Lemma rget_nil r : pending r [] ->
  (exists r', rget pickle unpickle r = (GRaw "z"%char [], r') /\ pending r' [] /\ r_in r' = r_in r /\ r_file r' = r_file r) \/
  (exists r', rget pickle unpickle r = (GNone, r') /\ pending r' [] /\ r_in r' = r_in r /\ r_file r' = r_file r /\ decreases r' r).
Proof using pickle_ok.
  intros (ms & Eb & Hok & G & HI & HB). destruct r as [src buf inn f]. cbn [r_buf r_src r_in r_file] in *.
  assert (Hz : okm zmsg) by (split; cbn; [unfold fits; cbn; lia|reflexivity]).
  destruct HB as [HB|[-> HB]].
  - symmetry in HB. apply app_eq_nil in HB as [-> HB]. cbn in Eb.
    unfold rget. cbn [r_buf r_src r_in r_file]. rewrite Eb.
    destruct (sread pickle src) as [chunk src'] eqn:Es.
    destruct (sread_ok src chunk src' G HI Es) as (ms & -> & G' & HI' & W & HB' & Hnil).
    rewrite HB in HB'. destruct HB' as [HB'|[-> HB']].
    + symmetry in HB'. apply app_eq_nil in HB' as [-> HB']. right. exists (mk_rcv src' [] inn f).
      split; [reflexivity|]. split; [|split; [reflexivity|split; [reflexivity|]]].
      * exists []. cbn. split; [reflexivity|]. split; [intros ? []|]. split; [assumption|]. split; [assumption|]. left. now rewrite HB'.
      * unfold decreases. cbn. destruct (Hnil eq_refl) as (_ & _ & W'). auto.
    + left. cbn [app]. pose proof (decode zmsg [] src' inn f Hz) as HD. unfold rget in HD. cbn [r_buf r_src r_in r_file] in HD.
      destruct (enc [zmsg]) as [|c0 l0] eqn:Ee; [apply enc_nil in Ee; discriminate|].
      rewrite HD. exists (mk_rcv src' (enc []) inn f). split; [reflexivity|]. split; [|auto].
      exists []. cbn. split; [reflexivity|]. split; [intros ? []|]. split; [assumption|]. split; [assumption|]. left. now rewrite HB'.
  - left. cbn [app] in Eb. rewrite Eb, (decode zmsg [] src inn f Hz).
    exists (mk_rcv src (enc []) inn f). split; [reflexivity|]. split; [|auto].
    exists []. cbn. split; [reflexivity|]. split; [intros ? []|]. split; [assumption|]. split; [assumption|]. left. now rewrite HB.
Qed.

(** a message of a file is there at once *)
Lemma rget_file r m P : pending r (m :: P) -> infile (fst m) = true ->
  exists r', rget pickle unpickle r = (gres_of m, r') /\ pending r' P /\ r_in r' = r_in r /\ r_file r' = r_file r.
Proof using pickle_ok.
  intros HP Hi. destruct (rget_cons r m P HP) as [H|(r' & _ & _ & _ & _ & H & _)]; [exact H|congruence].
Qed.

Lemma pending_set r P b : pending r P -> pending (set_in b r) P.
Proof using. auto. Qed.
Lemma pending_setf r P f : pending r P -> pending (set_file f r) P.
Proof using. auto. Qed.

Lemma close_val_ok b cl c r P : pending r (("h"%char, PL (PClose c)) :: P) ->
  exists r', set_close_val pickle unpickle b cl r = (None, r') /\ pending r' P /\ r_in r' = false /\
    r_file r' = Some (VFile b cl (Some c)).
Proof using pickle_ok.
  intros HP. unfold set_close_val. destruct (rget_file (set_in false r) _ P HP eq_refl) as (r' & -> & HP' & Hin & Hf).
  cbn. eexists. split; [reflexivity|]. split; [exact HP'|]. split; [exact Hin|reflexivity].
Qed.

Lemma fill_ok len K e : forall bl fuel r b, (length bl < fuel)%nat ->
  pending r (fmsgs "c"%char bl e ++ K) -> (forall x, In x bl -> x <> []) ->
  r_in r = true -> r_file r = Some (VFile (BB b) false None) ->
  (exists bl1 bl2 r', bl = bl1 ++ bl2 /\ fill pickle unpickle fuel len r = (None, r') /\ r_in r' = true /\
     r_file r' = Some (VFile (BB (b ++ concat bl1)) false None) /\ pending r' (fmsgs "c"%char bl2 e ++ K) /\
     more len (b ++ concat bl1) = false) \/
  (exists c r', e = FEof c /\ fill pickle unpickle fuel len r = (None, r') /\ r_in r' = false /\
     r_file r' = Some (VFile (BB (b ++ concat bl)) false (Some c)) /\ pending r' K /\ more len (b ++ concat bl) = true) \/
  (exists x r', e = FErr x /\ fill pickle unpickle fuel len r = (Some (XExc x), r') /\ r_in r' = false /\
     pending r' K /\ more len (b ++ concat bl) = true).
Proof using pickle_ok.
  induction bl as [|b0 bl IH]; intros fuel r b Hf HP Hne Hin Hr; (destruct fuel as [|fuel]; [cbn in Hf; lia|]); cbn [fill]; rewrite Hr.
  - destruct (more len b) eqn:Em.
    + right. cbn [fmsgs] in HP. cbn [concat]. rewrite app_nil_r. destruct e as [c|x].
      * left. destruct (rget_file r _ _ HP eq_refl) as (r1 & E1 & HP1 & Hin1 & Hf1).
        unfold vadd. rewrite E1. cbn [gres_of fst snd]. cbn [Ascii.eqb Bool.eqb].
        destruct (close_val_ok (BB b) false c r1 K HP1) as (r2 & -> & HP2 & Hin2 & Hf2). exists c, r2. auto 10.
      * right. destruct (rget_file r _ _ HP eq_refl) as (r1 & E1 & HP1 & Hin1 & Hf1).
        unfold vadd. rewrite E1. cbn. exists x. eexists. repeat split; auto.
    + left. exists [], [], r. cbn. rewrite app_nil_r. auto 10.
  - destruct (more len b) eqn:Em.
    + cbn [fmsgs app] in HP. destruct (rget_file r _ _ HP eq_refl) as (r1 & E1 & HP1 & Hin1 & Hf1).
      unfold vadd. rewrite E1. cbn [gres_of fst snd]. cbn [Ascii.eqb Bool.eqb].
      destruct b0 as [|a0 b0']; [exfalso; apply (Hne []); [now left|reflexivity]|]. set (b0 := a0 :: b0') in *.
      set (r2 := set_file (Some (VFile (BB (b ++ b0)) false None)) r1).
      assert (C1 : (length bl < fuel)%nat) by (cbn in Hf; lia).
      assert (C2 : pending r2 (fmsgs "c"%char bl e ++ K)) by exact HP1.
      assert (C3 : forall x, In x bl -> x <> []) by (intros y Hy; apply Hne; now right).
      assert (C4 : r_in r2 = true) by (unfold r2; cbn; congruence).
      destruct (IH fuel r2 (b ++ b0) C1 C2 C3 C4 eq_refl) as [(bl1 & bl2 & r' & -> & Ef & A)|[(c & r' & Ee & Ef & A)|(x & r' & Ee & Ef & A)]];
        rewrite Ef; cbn [concat].
      * left. exists (b0 :: bl1), bl2, r'. cbn [concat app]. rewrite app_assoc. split; [reflexivity|]. split; [reflexivity|exact A].
      * right. left. exists c, r'. rewrite app_assoc. split; [exact Ee|]. split; [reflexivity|exact A].
      * right. right. exists x, r'. rewrite app_assoc. split; [exact Ee|]. split; [reflexivity|exact A].
    + left. exists [], (b0 :: bl), r. cbn [concat app]. rewrite app_nil_r. auto 10.
Qed.

(** ** Simulation *)
Definition filerel (r : recv) (f : afile) (it : list item) : Prop :=
  match f with
  | AOpen [] (FEof c) => r_in r = false /\ r_file r = Some (VFile (BB []) false (Some c)) /\ pending r (items it)
  | AOpen rest e =>
      exists b bl, r_in r = true /\ r_file r = Some (VFile (BB b) false None) /\ b <> [] /\
        rest = b ++ concat bl /\ (forall x, In x bl -> x <> []) /\ pending r (fmsgs "c"%char bl e ++ items it)
  | ANone => r_in r = false /\ r_file r = None /\ pending r (items it)
  | AErrFile e => r_in r = false /\ r_file r = Some (VErr e) /\ pending r (items it)
  | AFailed => r_in r = false /\ pending r (items it)
  | AClosed c => r_in r = false /\ r_file r = Some (VFile (BB []) true (Some c)) /\ pending r (items it)
  end.

Lemma get_some_ok it : forall fuel r, (work (r_src r) < fuel)%nat -> pending r (items it) ->
  exists g r', get_some pickle unpickle fuel r = (g, r') /\ r_in r' = r_in r /\ r_file r' = r_file r /\
  match items it with
  | [] => g = GRaw "z"%char [] /\ pending r' []
  | m :: P => g = gres_of m /\ pending r' P
  end.
Proof using pickle_ok.
  induction fuel as [|fuel IH]; intros r Hf HP; [lia|]. cbn [get_some].
  destruct (items it) as [|m P] eqn:Ei.
  - destruct (rget_nil r HP) as [(r' & -> & HP' & H1 & H2)|(r' & -> & HP' & H1 & H2 & _ & _ & Hd)].
    + exists (GRaw "z"%char []), r'. auto.
    + destruct (IH r' ltac:(lia) HP') as (g & r2 & Eg & Hi & Hf2 & A). exists g, r2. rewrite H1, H2 in *. auto.
  - destruct (rget_cons r m P HP) as [(r' & -> & HP' & H1 & H2)|(r' & -> & HP' & H1 & H2 & _ & _ & _ & Hd)].
    + exists (gres_of m), r'. split; [destruct m as [? []]; reflexivity|auto].
    + destruct (IH r' ltac:(lia) HP') as (g & r2 & Eg & Hi & Hf2 & A). exists g, r2. rewrite H1, H2 in *. auto.
Qed.

Lemma next_items it : let '(it', f, x) := @next_item Ob R E C it in
  (x = ObStop /\ it' = [] /\ items it = []) \/
  exists i, items it = imsgs i ++ items it' /\ In i it /\ match i with
    | IObj o => x = ObObj o /\ f = ANone
    | IFlush => False
    | IFlushRepeat => x = ObFlushRepeat /\ f = ANone
    | IRorp r None => x = ObRorp r false /\ f = ANone
    | IRorp r (Some sf) => x = ObRorp r true /\ f = open_file sf
    end.
Proof using.
  induction it as [|i it IH]; cbn; [auto|].
  destruct i as [o| | |r [sf|]].
  - right. exists (IObj o). auto.
  - destruct (next_item it) as [[it' f] x]. destruct IH as [IH|(i & H1 & H2 & H3)]; [left; exact IH|right; exists i; auto].
  - right. exists IFlushRepeat. auto.
  - right. exists (IRorp r (Some sf)). auto.
  - right. exists (IRorp r None). auto.
Qed.

Lemma next_suffix it : let '(it', _, _) := @next_item Ob R E C it in forall i, In i it' -> In i it.
Proof using.
  induction it as [|i it IH]; cbn; [auto|].
  destruct i as [o| | |r [sf|]]; auto. destruct (next_item it) as [[it' f] x]. auto.
Qed.

(** not inside a file: the next item *)
Lemma rnext_ok r it f : (forall i, In i it -> good_item pickle i) ->
  r_in r = false -> pending r (items it) ->
  (forall r', r_in r' = r_in r -> r_file r' = r_file r -> pending r' (@items []) -> filerel r' f []) ->
  let '(it', f', x) := next_item it in
  exists r', rnext pickle unpickle r = (x, r') /\ filerel r' (match x with ObStop => f | _ => f' end) it'.
Proof using pickle_ok.
  intros Hg Hin HP Hstop. pose proof (next_items it) as HN. destruct (next_item it) as [[it' f'] x].
  unfold rnext. rewrite Hin.
  destruct (get_some_ok it (rfuel r) r ltac:(unfold rfuel; lia) HP) as (g & r1 & -> & Hin1 & Hf1 & A).
  destruct HN as [(-> & -> & Ei)|(i & Ei & Hi & A2)]; rewrite Ei in A.
  - destruct A as [-> HP1]. cbn. exists r1. split; [reflexivity|]. apply Hstop; auto.
  - rewrite Hin in Hin1. specialize (Hg i Hi). destruct i as [o| | |rp [sf|]].
    + destruct A2 as [-> ->]. cbn [imsgs app] in A. destruct A as [-> HP1]. cbn. eexists. split; [reflexivity|]. cbn. auto.
    + destruct A2.
    + destruct A2 as [-> ->]. cbn [imsgs app] in A. destruct A as [-> HP1]. cbn. eexists. split; [reflexivity|]. cbn. auto.
    + destruct A2 as [-> ->]. cbn [imsgs app] in A. destruct A as [-> HP1]. cbn [gres_of fst snd]. cbn [Ascii.eqb Bool.eqb].
      destruct Hg as [_ Hg]. destruct sf as [bl e]. unfold open_file. destruct Hg as [Hb He].
      cbn [ofmsgs f_blocks f_end] in *.
      destruct bl as [|b bl].
      * cbn [concat]. destruct e as [c|xx].
        -- cbn [fmsgs app] in HP1. destruct (rget_file r1 _ _ HP1 eq_refl) as (r2 & -> & HP2 & Hin2 & Hf2).
           cbn [gres_of fst snd]. cbn [Ascii.eqb Bool.eqb].
           destruct (close_val_ok (BB []) false c (set_in true (set_file (Some (VFile (BB []) false None)) r2)) (items it')) as (r4 & -> & HP4 & Hin4 & Hf4); [exact HP2|].
           exists r4. split; [reflexivity|]. cbn. auto.
        -- cbn [fmsgs app] in HP1. destruct (rget_file r1 _ _ HP1 eq_refl) as (r2 & -> & HP2 & Hin2 & Hf2).
           cbn. eexists. split; [reflexivity|]. cbn. rewrite Hin2. auto.
      * destruct (Hb b (or_introl eq_refl)) as [Hne _].
        cbn [fmsgs app] in HP1. destruct (rget_file r1 _ _ HP1 eq_refl) as (r2 & -> & HP2 & Hin2 & Hf2).
        cbn [gres_of fst snd]. cbn [Ascii.eqb Bool.eqb].
        destruct b as [|a b]; [congruence|]. eexists. split; [reflexivity|].
        cbn [concat app]. unfold filerel. exists (a :: b), bl. repeat split; auto.
        intros y Hy. apply Hb. now right.
    + destruct A2 as [-> ->]. cbn [imsgs app] in A. destruct A as [-> HP1]. cbn. eexists. split; [reflexivity|]. cbn. auto.
Qed.

Lemma more_leb len (b : bytes) : more len b = match len with Some n => Nat.leb (length b) n | None => true end.
Proof using. reflexivity. Qed.

Lemma sim_step r it f o x it' f' : (forall i, In i it -> good_item pickle i) -> filerel r f it ->
  spec_step (it, f) o = Some (x, (it', f')) ->
  exists r', rstep pickle unpickle r o = (x, r') /\ filerel r' f' it' /\ (forall i, In i it' -> good_item pickle i).
Proof using pickle_ok.
  intros Hg HR HS. destruct o as [|len|]; cbn [rstep].
  - (* Next *)
    cbn in HS. pose proof (next_suffix it) as Hsuf.
    assert (Hcond : r_in r = false /\ pending r (items it) /\
       (forall r', r_in r' = r_in r -> r_file r' = r_file r -> pending r' (@items []) -> filerel r' f []) /\
       exists it2 f2, next_item it = (it2, f2, x) /\ it' = it2 /\ f' = match x with ObStop => f | _ => f2 end).
    { destruct f as [|[|a rest] [c|y]|e0| |c]; cbn in HR; try discriminate;
        destruct (next_item it) as [[it2 f2] x2]; injection HS as <- <- <-; cbn.
      - destruct HR as (A1 & A2 & A3). split; [auto|]. split; [auto|]. split; [|eauto]. intros r' B1 B2 B3. rewrite B1, B2. auto.
      - destruct HR as (A1 & A2 & A3). split; [auto|]. split; [auto|]. split; [|eauto]. intros r' B1 B2 B3. rewrite B1, B2. auto.
      - destruct HR as (b & bl & _ & _ & Hb & HE & _). destruct b; [congruence|discriminate].
      - destruct HR as (A1 & A2 & A3). split; [auto|]. split; [auto|]. split; [|eauto]. intros r' B1 B2 B3. rewrite B1, B2. auto.
      - destruct HR as (A1 & A3). split; [auto|]. split; [auto|]. split; [|eauto]. intros r' B1 B2 B3. rewrite B1. auto.
      - destruct HR as (A1 & A2 & A3). split; [auto|]. split; [auto|]. split; [|eauto]. intros r' B1 B2 B3. rewrite B1, B2. auto. }
    destruct Hcond as (A1 & A2 & A3 & it2 & f2 & En & -> & ->).
    pose proof (rnext_ok r it f Hg A1 A2 A3) as HN. rewrite En in HN, Hsuf. destruct HN as (r' & -> & HF).
    exists r'. auto.
  - (* Read *)
    cbn in HS. unfold vread. destruct f as [|rest e|e0| |c].
    + destruct HR as (A1 & A2 & A3). injection HS as <- <- <-. rewrite A2. exists r. cbn. auto.
    + assert (HC : (rest = [] /\ exists c, e = FEof c) \/ (exists b bl, r_in r = true /\ r_file r = Some (VFile (BB b) false None) /\ b <> [] /\
        rest = b ++ concat bl /\ (forall x, In x bl -> x <> []) /\ pending r (fmsgs "c"%char bl e ++ items it))).
      { destruct rest as [|a rest]; [destruct e as [c|y]; [left; eauto|right; exact HR]|right; exact HR]. }
      destruct HC as [(-> & c & ->)|(b & bl & Hin & Hf & Hb & Hrest & Hbl & HP)].
      * cbn in HR. destruct HR as (A1 & A2 & A3). rewrite A2, A1. cbn [length] in HS.
        assert (HS' : Some (@ObData Ob R E C [], (it, AOpen [] (FEof c))) = Some (x, (it', f'))) by (destruct len as [n|]; exact HS).
        injection HS' as <- <- <-. rewrite A2. cbn [length].
        eexists. split; [f_equal|]; [destruct len as [[|n]|]; reflexivity|]. cbn. split; [|auto].
        split; [auto|]. split; [|auto]. destruct len as [[|n]|]; reflexivity.
      * rewrite Hf, Hin.
        assert (Hfuel : (length bl < rfuel r)%nat).
        { apply pending_length in HP. rewrite app_length in HP.
          eapply Nat.lt_le_trans; [apply (fmsgs_length "c"%char bl e)|]. unfold rfuel. lia. }
        destruct (fill_ok len (items it) e bl (rfuel r) r b Hfuel HP Hbl Hin Hf)
          as [(bl1 & bl2 & r' & -> & -> & Hin' & Hf' & HP' & Hm)|[(c & r' & -> & -> & Hin' & Hf' & HP' & Hm)|(y & r' & -> & -> & Hin' & HP' & Hm)]].
        -- rewrite Hf'. rewrite concat_app, app_assoc in Hrest. set (B := b ++ concat bl1) in *.
           destruct len as [n|]; [|discriminate]. cbn [more] in Hm. apply Nat.leb_gt in Hm.
           assert (Hw : Nat.leb (length rest) n = false) by (apply Nat.leb_gt; rewrite Hrest, app_length; lia).
           rewrite Hw in HS. injection HS as <- <- <-.
           rewrite Nat.min_l by lia. eexists. split; [f_equal; f_equal|].
           ++ rewrite Hrest, firstn_app. replace (n - length B)%nat with 0%nat by lia. cbn. now rewrite app_nil_r.
           ++ split; [|assumption].
              assert (HB : skipn n B <> []).
              { intros En. apply (f_equal (@length ascii)) in En. rewrite skipn_length in En. cbn in En. lia. }
              assert (Hsk : skipn n rest = skipn n B ++ concat bl2).
              { rewrite Hrest, skipn_app. now replace (n - length B)%nat with 0%nat by lia. }
              unfold filerel. destruct (skipn n rest) as [|a0 rest0] eqn:Er.
              { destruct (skipn n B); [congruence|discriminate]. }
              exists (skipn n B), bl2. cbn. repeat split; auto. intros y Hy. apply Hbl, in_app_iff. auto.
        -- rewrite Hf'. set (B := b ++ concat bl) in *. rewrite more_leb in Hm. rewrite Hrest in HS. rewrite Hm in HS.
           injection HS as <- <- <-.
           assert (Hl : (match len with Some n => Nat.min n (length B) | None => length B end) = length B).
           { destruct len as [n|]; [|reflexivity]. apply Nat.leb_le in Hm. lia. }
           rewrite Hl, firstn_all, skipn_all. eexists. split; [reflexivity|]. split; [|assumption]. cbn. auto.
        -- rewrite more_leb in Hm. rewrite Hrest in HS. rewrite Hm in HS. injection HS as <- <- <-.
           eexists. split; [reflexivity|]. cbn. auto.
    + destruct HR as (A1 & A2 & A3). injection HS as <- <- <-. rewrite A2. exists r. cbn. auto.
    + discriminate.
    + destruct HR as (A1 & A2 & A3). injection HS as <- <- <-. rewrite A2. exists r. cbn. auto.
  - (* Close *)
    cbn in HS. unfold vclose. destruct f as [|[|a rest] [c|y]|e0| |c]; try discriminate.
    + destruct HR as (A1 & A2 & A3). injection HS as <- <- <-. rewrite A2. exists r. cbn. auto.
    + destruct HR as (A1 & A2 & A3). injection HS as <- <- <-. rewrite A2. unfold rfuel. cbn [drain]. rewrite A1, A2.
      eexists. split; [reflexivity|]. cbn. auto.
    + destruct HR as (A1 & A2 & A3). injection HS as <- <- <-. rewrite A2. exists r. cbn. auto.
    + destruct HR as (A1 & A2 & A3). injection HS as <- <- <-. rewrite A2. unfold rfuel. cbn [drain]. rewrite A1, A2.
      eexists. split; [reflexivity|]. cbn. auto.
Qed.

Lemma sim_run ops : forall r it f l, (forall i, In i it -> good_item pickle i) -> filerel r f it ->
  spec_run (it, f) ops = Some l -> rrun pickle unpickle r ops = l.
Proof using pickle_ok.
  induction ops as [|o ops IH]; intros r it f l Hg HR HS; cbn [spec_run rrun] in *; [congruence|].
  destruct (spec_step (it, f) o) as [[x [it' f']]|] eqn:Es; [|discriminate].
  destruct (sim_step r it f o x it' f' Hg HR Es) as (r' & -> & HR' & Hg').
  destruct (spec_run (it', f') ops) as [l'|] eqn:E2; [|discriminate]. injection HS as <-.
  f_equal. eapply IH; eauto.
Qed.

Lemma sim_start it maxb maxr : (forall i, In i it -> good_item pickle i) -> (0 < maxb)%N -> (0 < maxr)%nat ->
  filerel (new_recv (new_sender it maxb maxr)) ANone it.
Proof using.
  intros Hg H1 H2. cbn. split; [reflexivity|]. split; [reflexivity|].
  exists []. cbn. split; [reflexivity|]. split; [intros ? []|]. split; [constructor; cbn; auto|]. split; [split; reflexivity|].
  left. reflexivity.
Qed.
End Sim.

(** * C25: replacement names for long file names never collide *)
From Coq Require Import List ZArith Bool Ascii Lia.
From Verif Require Import Base L_Base M_Iter L_Iter M_LongNames.
Import List ListNotations.
Local Open Scope Z_scope.

(** ** The counter *)

Lemma mem_name_In x l : mem_name x l = true <-> In x l.
Proof.
  unfold mem_name. rewrite existsb_exists. split.
  - intros [y [H E]]. apply beq_bytes_true in E. now subst.
  - intros H. exists x. split; [exact H|]. now apply beq_bytes_true.
Qed.

Lemma scan_high_ge l : forall cur, cur <= scan_high l cur.
Proof.
  induction l as [|f r IH]; intro cur; [apply Z.le_refl|]. cbn [scan_high].
  destruct (parse_Z (base_of f)) as [i|]; [|apply IH].
  destruct (Z.ltb_spec cur i); [|apply IH]. etransitivity; [|apply IH]. lia.
Qed.
Lemma scan_high_all l : forall cur f i, In f l -> parse_Z (base_of f) = Some i -> i <= scan_high l cur.
Proof.
  induction l as [|g r IH]; intros cur f i H E; [destruct H|]. cbn [scan_high]. destruct H as [<-|H].
  - rewrite E. destruct (Z.ltb_spec cur i); [apply scan_high_ge|]. etransitivity; [|apply scan_high_ge]. lia.
  - eapply IH; eauto.
Qed.

(** number of a name: the files belonging to replacement name [n] are "n", "n.time.diff" *)
Definition belongs (f : bytes) (n : bytes) : Prop := base_of f = n.

(** Histories: requests for a name, new files for a name given out, deletions, ends of
    the process (also while the counter is being written: [k] is the point reached). *)
Inductive op : Type :=
| Ask
| AskCut (k : nat)
| Make (n : bytes) (suffix : bytes)
| Delete (f : bytes)
| Stop.

Definition is_suffix (s : bytes) : Prop := s = [] \/ exists r, s = dot :: r.
Definition stopped (s : ln) : ln := mk_ln (n_files s) (n_next s) None.

(** [run s given ops s' given']: [given] are the names given out, the last one first;
    after a cut only those which have files are remembered *)
Inductive run : ln -> list bytes -> list op -> ln -> list bytes -> Prop :=
| run_nil s g : run s g [] s g
| run_ask s g ops s2 g2 n ds s1 : next_free_filename s = Some (n, ds, s1) ->
    run s1 (n :: g) ops s2 g2 -> run s g (Ask :: ops) s2 g2
| run_cut s g ops s2 g2 n ds s1 k d : next_free_filename s = Some (n, ds, s1) -> nth_error ds k = Some d ->
    run d [] ops s2 g2 -> run s g (AskCut k :: ops) s2 g2
| run_make s g ops s2 g2 n x : In n g -> is_suffix x ->
    run (mk_ln ((n ++ x) :: n_files s) (n_next s) (n_mem s)) g ops s2 g2 -> run s g (Make n x :: ops) s2 g2
| run_del s g ops s2 g2 f :
    run (mk_ln (filter (fun y => negb (beq_bytes f y)) (n_files s)) (n_next s) (n_mem s)) g ops s2 g2 ->
    run s g (Delete f :: ops) s2 g2
| run_stop s g ops s2 g2 : run (stopped s) g ops s2 g2 -> run s g (Stop :: ops) s2 g2.

Definition empty_ln : ln := mk_ln [] None None.

Lemma dec_Z_nodot z : ~ In dot (dec_Z z).
Proof.
  assert (D : forall n, ~ In dot (dec n)).
  { intros n H. pose proof (dec_digits n) as X. rewrite forallb_forall in X. apply X in H. discriminate. }
  unfold dec_Z. destruct (z <? 0); [|apply D]. intros [H|H]; [discriminate|]. now apply D in H.
Qed.
Lemma base_of_made z x : is_suffix x -> base_of (dec_Z z ++ x) = dec_Z z.
Proof.
  intros H. unfold base_of. pose proof (dec_Z_nodot z) as N. induction (dec_Z z) as [|c r IH]; cbn [app].
  - destruct H as [->|[r ->]]; reflexivity.
  - cbn [break_on]. destruct (Ascii.eqb_spec c dot) as [->|Nc]; [exfalso; apply N; now left|].
    destruct (break_on dot (r ++ x)) as [a b] eqn:E. cbn [fst] in *. f_equal. apply IH. intros X; apply N; now right.
Qed.
Lemma dec_Z_inj a b : dec_Z a = dec_Z b -> a = b.
Proof. intros H. pose proof (parse_Z_dec_Z a) as A. rewrite H, parse_Z_dec_Z in A. congruence. Qed.

(** all the names given out are numbers, and every file belongs to one given out *)
Definition numbers (g : list bytes) : Prop := forall n, In n g -> exists z, 1 <= z /\ n = dec_Z z.
Definition files_given (s : ln) (g : list bytes) : Prop :=
  forall f, In f (n_files s) -> exists z, 1 <= z /\ base_of f = dec_Z z /\ In (dec_Z z) g.

(** the counters are above every name given out *)
Definition above (s : ln) (g : list bytes) : Prop :=
  match n_mem s with
  | Some m => n_next s = Some (dec_Z m) /\ 1 <= m /\ forall z, In (dec_Z z) g -> z < m
  | None =>
      match n_next s with
      | Some c => exists m, c = dec_Z m /\ 1 <= m /\ forall z, In (dec_Z z) g -> z < m
      | None => g = []
      end
  end.

Lemma counter_above s g : above s g -> files_given s g -> exists c, counter s = Some c /\ 1 <= c /\ forall z, In (dec_Z z) g -> z < c.
Proof.
  unfold above, counter. intros A F. destruct (n_mem s) as [m|].
  - destruct A as [_ [M G]]. destruct m as [|m|m]; try lia. exists (Zpos m). auto.
  - destruct (n_next s) as [c|].
    + destruct A as [m [-> [M G]]]. rewrite parse_Z_dec_Z. destruct m as [|m|m]; try lia. exists (Zpos m). auto.
    + subst g. exists (scan_next_free s). split; [reflexivity|]. unfold scan_next_free.
      pose proof (scan_high_ge (n_files s) 0). split; [lia|]. intros z [].
Qed.

Lemma ask_ok s g : above s g -> files_given s g -> numbers g ->
  exists c ds s1, next_free_filename s = Some (dec_Z c, ds, s1) /\ ~ In (dec_Z c) g /\ 1 <= c /\
    above s1 (dec_Z c :: g) /\ n_files s1 = n_files s.
Proof.
  intros A F N. destruct (counter_above _ _ A F) as [c [Ec [C G]]].
  assert (Ng : ~ In (dec_Z c) g) by (intros H; apply G in H; lia).
  assert (M : mem_name (dec_Z c) (n_files s) = false).
  { destruct (mem_name (dec_Z c) (n_files s)) eqn:E; [|reflexivity]. exfalso.
    apply mem_name_In in E. destruct (F _ E) as [z [_ [Bz Gz]]].
    pose proof (base_of_made c [] (or_introl eq_refl)) as X. rewrite app_nil_r in X. rewrite X in Bz.
    apply dec_Z_inj in Bz. subst z. tauto. }
  unfold next_free_filename. rewrite Ec, M.
  exists c. eexists. eexists. split; [reflexivity|]. split; [exact Ng|]. split; [exact C|]. split; [|reflexivity].
  unfold above. cbn [n_mem n_next]. split; [reflexivity|]. split; [lia|].
  intros z [H|H]; [apply dec_Z_inj in H; lia|]. apply G in H. lia.
Qed.

(** Without interruptions inside the writing of the counter: whatever is asked for, made,
    deleted, and however often the program is restarted, every name asked for is given,
    and all the names given out are different. *)
Definition uncut (o : op) : Prop := match o with AskCut _ => False | _ => True end.
Lemma run_distinct s g ops s' g' : run s g ops s' g' -> (forall o, In o ops -> uncut o) ->
  above s g -> files_given s g -> numbers g -> NoDup g ->
  above s' g' /\ files_given s' g' /\ numbers g' /\ NoDup g'.
Proof.
  induction 1 as [s g|s g ops s2 g2 n ds s1 E R IH|s g ops s2 g2 n ds s1 k d E K R IH|s g ops s2 g2 n x I Sx R IH|s g ops s2 g2 f R IH|s g ops s2 g2 R IH];
    intros U A F N D.
  - auto.
  - destruct (ask_ok _ _ A F N) as [c [ds' [s1' [E' [Ng [C [A' Fs]]]]]]]. rewrite E in E'. injection E' as -> -> ->.
    apply IH; [intros o Ho; apply U; now right|exact A'| | |now constructor].
    + intros f Hf. rewrite Fs in Hf. destruct (F _ Hf) as [z [Z [B G]]]. exists z. repeat split; auto. now right.
    + intros m [<-|Hm]; [now exists c|auto].
  - exfalso. exact (U _ (or_introl eq_refl)).
  - apply IH; [intros o Ho; apply U; now right|exact A| |exact N|exact D].
    intros f [<-|Hf]; [|auto]. destruct (N _ I) as [z [Z ->]]. exists z. split; [exact Z|]. split; [now apply base_of_made|exact I].
  - apply IH; [intros o Ho; apply U; now right|exact A| |exact N|exact D].
    intros y Hy. cbn [n_files] in Hy. apply filter_In in Hy as [Hy _]. auto.
  - apply IH; [intros o Ho; apply U; now right| |exact F|exact N|exact D].
    unfold above, stopped in *. cbn [n_mem n_next]. destruct (n_mem s) as [m|]; [|exact A].
    destruct A as [-> [M G]]. exists m. auto.
Qed.
Theorem C25_names_distinct : forall ops s g,
  run empty_ln [] ops s g -> (forall o, In o ops -> uncut o) ->
  NoDup g /\ exists n ds s1, next_free_filename s = Some (n, ds, s1) /\ ~ In n g /\
    forall f, In f (n_files s) -> ~ belongs f n.
Proof.
  intros ops s g R U.
  destruct (run_distinct _ _ _ _ _ R U) as [A [F [N D]]].
  - reflexivity.
  - intros f [].
  - intros n [].
  - constructor.
  - split; [exact D|]. destruct (ask_ok _ _ A F N) as [c [ds [s1 [E [Ng [C _]]]]]].
    exists (dec_Z c), ds, s1. split; [exact E|]. split; [exact Ng|].
    intros f Hf B. destruct (F _ Hf) as [z [_ [Bz Gz]]]. unfold belongs in B. rewrite B in Bz. apply dec_Z_inj in Bz. subst z. tauto.
Qed.
Print Assumptions C25_names_distinct.

(** Also with interruptions while the counter is written (it may be lost): a name given
    out belongs to no file in the directory. *)
Definition above_files (s : ln) : Prop :=
  (forall f, In f (n_files s) -> exists z, 1 <= z /\ base_of f = dec_Z z) /\
  (forall m, n_mem s = Some m -> 1 <= m /\ forall f z, In f (n_files s) -> base_of f = dec_Z z -> z < m) /\
  (forall c m, n_next s = Some c -> parse_Z c = Some m ->
     1 <= m /\ forall f z, In f (n_files s) -> base_of f = dec_Z z -> z < m).
Lemma ask_files s n ds s1 :
  above_files s -> next_free_filename s = Some (n, ds, s1) ->
  exists c, n = dec_Z c /\ 1 <= c /\ (forall f, In f (n_files s) -> ~ belongs f n) /\
   (forall f z, In f (n_files s) -> base_of f = dec_Z z -> z < c) /\
   s1 = mk_ln (n_files s) (Some (dec_Z (c + 1))) (Some (c + 1)) /\
   counter s = Some c /\
   (forall d, In d ds -> d = mk_ln (n_files s) (n_next s) None \/ d = mk_ln (n_files s) None None \/ d = mk_ln (n_files s) (Some []) None).
Proof.
  intros [Nm [Am An]] E. unfold next_free_filename in E.
  destruct (counter s) as [c|] eqn:Ec; [|discriminate].
  destruct (mem_name (dec_Z c) (n_files s)) eqn:M; [discriminate|]. injection E as <- <- <-.
  assert (X : 1 <= c /\ forall f z, In f (n_files s) -> base_of f = dec_Z z -> z < c).
  { assert (Sc : 1 <= scan_next_free s /\ forall f z, In f (n_files s) -> base_of f = dec_Z z -> z < scan_next_free s).
    { unfold scan_next_free. pose proof (scan_high_ge (n_files s) 0). split; [lia|]. intros f z Hf B.
      assert (P : parse_Z (base_of f) = Some z) by (rewrite B; apply parse_Z_dec_Z).
      pose proof (scan_high_all (n_files s) 0 f z Hf P). lia. }
    unfold counter in Ec. destruct (n_mem s) as [m|].
    - destruct (Am m eq_refl) as [M1 M2]. destruct m as [|m|m]; try lia. injection Ec as <-. auto.
    - destruct (n_next s) as [c0|]; [|injection Ec as <-; exact Sc].
      destruct (parse_Z c0) as [m|] eqn:P; [|discriminate]. destruct (An c0 m eq_refl P) as [M1 M2].
      destruct m as [|m|m]; try lia. injection Ec as <-. auto. }
  destruct X as [C1 C2]. exists c. split; [reflexivity|]. split; [exact C1|]. split; [|split; [exact C2|split; [reflexivity|split; [reflexivity|]]]].
  - intros f Hf B. apply (C2 f c) in B; [lia|exact Hf].
  - intros d Hd. apply in_app_or in Hd as [Hd|[<-|[<-|[]]]]; auto.
    destruct (n_next s) as [x|]; [destruct Hd as [<-|[]]; auto|destruct Hd].
Qed.

Lemma run_files s g ops s' g' : run s g ops s' g' ->
  above_files s -> numbers g ->
  (forall z, In (dec_Z z) g -> (forall m, n_mem s = Some m -> z < m) /\ exists c m, n_next s = Some c /\ parse_Z c = Some m /\ z < m) ->
  above_files s'.
Proof.
  induction 1 as [s g|s g ops s2 g2 n ds s1 E R IH|s g ops s2 g2 n ds s1 k d E K R IH|s g ops s2 g2 n x I Sx R IH|s g ops s2 g2 f R IH|s g ops s2 g2 R IH];
    intros A N B.
  - exact A.
  - destruct (ask_files _ _ _ _ A E) as [c [-> [C1 [_ [C2 [-> [Ec _]]]]]]]. apply IH.
    + destruct A as [A1 _]. unfold above_files. cbn [n_files n_mem n_next]. split; [exact A1|]. split.
      * intros m [= <-]. split; [lia|]. intros f z Hf Bz. specialize (C2 f z Hf Bz). lia.
      * intros c0 m [= <-] P. rewrite parse_Z_dec_Z in P. injection P as <-. split; [lia|].
        intros f z Hf Bz. specialize (C2 f z Hf Bz). lia.
    + intros m [<-|Hm]; [now exists c|auto].
    + cbn [n_mem n_next]. assert (Z : forall z, In (dec_Z z) (dec_Z c :: g) -> z < c + 1).
      { intros z [H|H]; [apply dec_Z_inj in H; lia|]. destruct (B z H) as [B1 [c0 [m0 [B2 [B3 B4]]]]].
        unfold counter in Ec. destruct A as [_ [Am An]]. destruct (n_mem s) as [m|].
        - specialize (B1 m eq_refl). destruct (Am m eq_refl) as [M1 _]. destruct m; try lia. injection Ec as <-. lia.
        - rewrite B2, B3 in Ec. destruct (An c0 m0 B2 B3) as [M1 _]. destruct m0; try lia. injection Ec as <-. lia. }
      intros z H. apply Z in H. split; [intros m [= <-]; exact H|].
      exists (dec_Z (c + 1)), (c + 1). split; [reflexivity|]. split; [apply parse_Z_dec_Z|exact H].
  - destruct (ask_files _ _ _ _ A E) as [c [_ [_ [_ [_ [_ [_ D]]]]]]]. apply nth_error_In in K. apply D in K.
    apply IH; [|intros m []|intros z []].
    destruct A as [A1 [A2 A3]].
    destruct K as [->|[->| ->]]; unfold above_files; cbn [n_files n_mem n_next]; (split; [exact A1|]); (split; [discriminate|]); try discriminate.
    + exact A3.
    + intros c0 m [= <-] P. discriminate.
  - apply IH; [|exact N|exact B]. destruct A as [A1 [A2 A3]]. destruct (N _ I) as [z [Z ->]].
    pose proof (base_of_made z x Sx) as Bm. unfold above_files. cbn [n_files n_mem n_next].
    destruct (B z I) as [B1 [c0 [m0 [B2 [B3 B4]]]]]. split; [|split].
    + intros f [<-|Hf]; [now exists z|auto].
    + intros m Em. destruct (A2 m Em) as [M1 M2]. split; [exact M1|]. intros f y [<-|Hf] By; [|eauto].
      rewrite Bm in By. apply dec_Z_inj in By. subst y. now apply B1.
    + intros c m Ec P. destruct (A3 c m Ec P) as [M1 M2]. split; [exact M1|]. intros f y [<-|Hf] By; [|eauto].
      rewrite Bm in By. apply dec_Z_inj in By. subst y. assert (c0 = c) by congruence. subst c0. congruence.
  - apply IH; [|exact N|exact B]. destruct A as [A1 [A2 A3]]. unfold above_files. cbn [n_files n_mem n_next].
    assert (Fl : forall y, In y (filter (fun y => negb (beq_bytes f y)) (n_files s)) -> In y (n_files s)) by (intros y Hy; now apply filter_In in Hy).
    split; [auto|]. split.
    + intros m Em. destruct (A2 m Em) as [M1 M2]. split; [exact M1|]. eauto.
    + intros c m Ec P. destruct (A3 c m Ec P) as [M1 M2]. split; [exact M1|]. eauto.
  - apply IH; [|exact N|].
    + destruct A as [A1 [A2 A3]]. unfold above_files, stopped. cbn [n_files n_mem n_next]. split; [exact A1|]. split; [discriminate|exact A3].
    + intros z Hz. destruct (B z Hz) as [_ B2]. split; [discriminate|exact B2].
Qed.
Theorem C25_never_existing : forall ops s g n ds s1,
  run empty_ln [] ops s g -> next_free_filename s = Some (n, ds, s1) ->
  forall f, In f (n_files s) -> ~ belongs f n.
Proof.
  intros ops s g n ds s1 R E. assert (A : above_files s).
  { eapply run_files; [exact R| | |].
    - split; [intros f []|]. split; [discriminate|discriminate].
    - intros m [].
    - intros z []. }
  destruct (ask_files _ _ _ _ A E) as [c [_ [_ [H _]]]]. exact H.
Qed.
Print Assumptions C25_never_existing.

(** A name recorded for a file which has no increment yet is given out a second time when
    the counter has been lost. *)
Theorem C25_counter_lost_refuted : exists n ds s1 d ds2 s2,
  next_free_filename empty_ln = Some (n, ds, s1) /\
  next_free_filename s1 = Some (bs "2", [mk_ln [] (Some (bs "2")) None; d; mk_ln [] (Some []) None], s2) /\
  next_free_filename d = Some (n, ds2, s1).
Proof. do 6 eexists. split; [vm_compute; reflexivity|]. split; vm_compute; reflexivity. Qed.
(** An empty counter file stops every later backup needing a name. *)
Theorem C25_empty_counter_refuted : exists n ds s1 d,
  next_free_filename empty_ln = Some (n, ds, s1) /\ In d ds /\ next_free_filename d = None.
Proof.
  eexists. eexists. eexists. exists (mk_ln [] (Some []) None). split; [reflexivity|]. split; [cbn; auto|reflexivity].
Qed.

(** ** The places files are stored at *)
Section Places.
Variables mirror_long inc_long : idx -> bool.

(** The metadata of the last session and the next number; backing up one path [i] (new or
    changed if [present], deleted otherwise).  The names given out are recorded in [t]. *)
Record pst : Type := mk_pst { p_rec : list lrorp; p_next : Z; p_trace : list (idx * bytes) }.
Definition recorded (s : pst) (i : idx) : option lrorp := find (fun r => idx_eqb (l_index r) i) (p_rec s).
Definition set_rec (l : list lrorp) (i : idx) (r : option lrorp) : list lrorp :=
  match r with Some x => [x] | None => [] end ++ filter (fun r => negb (idx_eqb (l_index r) i)) l.
Definition new_of (i : idx) (present : bool) : option lrorp := if present then Some (mk_lrorp i None None) else None.
Inductive pstep : pst -> pst -> Prop :=
| p_one s i present m c new used :
    mirror_inc mirror_long inc_long (new_of i present) (recorded s i) (dec_Z (p_next s)) = Some (m, c, new, used) ->
    pstep s (mk_pst (set_rec (p_rec s) i new) (if used then p_next s + 1 else p_next s)
                    (if used then (i, dec_Z (p_next s)) :: p_trace s else p_trace s)).
Inductive psteps : pst -> pst -> Prop :=
| ps_nil s : psteps s s
| ps_one s1 s2 s3 : psteps s1 s2 -> pstep s2 s3 -> psteps s1 s3.

(** what is known of a recorded file *)
Definition rec_ok (s : pst) (r : lrorp) : Prop :=
  (forall a, l_alt_mirror r = Some a -> In (l_index r, a) (p_trace s) /\ l_alt_inc r = None) /\
  (forall a, l_alt_inc r = Some a -> In (l_index r, a) (p_trace s) /\ l_alt_mirror r = None) /\
  (l_alt_mirror r = None -> l_alt_inc r = None -> l_index r = [] \/ inc_long (l_index r) = false).
Definition pinv (s : pst) : Prop :=
  (forall r, In r (p_rec s) -> rec_ok s r) /\
  (forall i a, In (i, a) (p_trace s) -> exists z, a = dec_Z z /\ z < p_next s) /\
  NoDup (map snd (p_trace s)).

Lemma idx_eqb_true i j : idx_eqb i j = true <-> i = j.
Proof. apply idx_eqb_eq. Qed.
Lemma recorded_in s i r : recorded s i = Some r -> In r (p_rec s) /\ l_index r = i.
Proof. intros H. apply find_some in H as [H E]. now apply idx_eqb_true in E. Qed.

Lemma rec_ok_mono s s' r : (forall x, In x (p_trace s) -> In x (p_trace s')) -> rec_ok s r -> rec_ok s' r.
Proof.
  intros T [A [B C]]. split; [|split; [|exact C]].
  - intros a E. destruct (A a E). auto.
  - intros a E. destruct (B a E). auto.
Qed.

Lemma find_inc_cases i m am ai nx ai' c used : find_inc inc_long i m am ai nx = (ai', c, used) ->
  (exists a, am = Some a /\ ai' = None /\ c = m /\ used = false) \/
  (exists a, am = None /\ ai = Some a /\ ai' = Some a /\ c = InLong a /\ used = false) \/
  (am = None /\ ai = None /\ ai' = Some nx /\ c = InLong nx /\ used = true /\ i <> [] /\ inc_long i = true) \/
  (am = None /\ ai = None /\ ai' = None /\ c = InIncs i /\ used = false /\ (i = [] \/ inc_long i = false)).
Proof.
  unfold find_inc. destruct am as [a|].
  - intros [= <- <- <-]. left. eauto.
  - destruct ai as [a|].
    + intros [= <- <- <-]. right. left. exists a. auto.
    + destruct i as [|x i].
      * intros [= <- <- <-]. right. right. right. auto 10.
      * destruct (inc_long (x :: i)) eqn:L; intros [= <- <- <-]; right; right; [left|right].
        -- repeat split; auto; discriminate.
        -- repeat split; auto.
Qed.

Lemma pstep_inv s s' : pinv s -> pstep s s' -> pinv s'.
Proof.
  intros [I1 [I2 I3]] H. destruct H as [s i present m c new used E].
  assert (Fresh : forall j, ~ In (j, dec_Z (p_next s)) (p_trace s)).
  { intros j H. destruct (I2 _ _ H) as [z [Ez Lz]]. apply dec_Z_inj in Ez. lia. }
  set (s' := mk_pst _ _ _).
  assert (T : forall x, In x (p_trace s) -> In x (p_trace s')) by (intros x Hx; unfold s'; cbn [p_trace]; destruct used; [now right|exact Hx]).
  assert (U : used = true -> In (i, dec_Z (p_next s)) (p_trace s')) by (intros ->; now left).
  split; [|split].
  - intros r Hr. unfold s' in Hr. cbn [p_rec] in Hr. unfold set_rec in Hr. apply in_app_or in Hr as [Hr|Hr].
    + destruct new as [x|]; [|destruct Hr]. destruct Hr as [<-|[]].
      unfold mirror_inc in E. destruct (recorded s i) as [o|] eqn:Ro.
      * apply recorded_in in Ro as [Io Eo]. pose proof (I1 _ Io) as Oo. destruct Oo as [O1 [O2 O3]]. rewrite Eo in *.
        destruct (l_alt_mirror o) as [a|] eqn:Am.
        -- cbn [find_inc] in E. destruct present; [|discriminate]. cbn [new_of update_rorp l_index l_alt_inc] in E. injection E as _ _ <- <-.
           destruct (O1 a eq_refl) as [O1a _].
           split; [|split]; cbn [l_alt_mirror l_alt_inc l_index]; [intros b [= <-]; auto|discriminate|discriminate].
        -- destruct (find_inc inc_long i (InMirror i) None (l_alt_inc o) (dec_Z (p_next s))) as [[ai' c'] u'] eqn:Fi.
           destruct present; [|cbn in E; discriminate]. cbn [new_of update_rorp l_index l_alt_mirror] in E.
           destruct (find_inc_cases _ _ _ _ _ _ _ _ Fi) as [[a [X _]]|[[a [_ [Ea [-> [_ ->]]]]]|[[_ [_ [-> [_ [-> [Ni Li]]]]]]|[_ [_ [-> [_ [-> Hi]]]]]]]]; [discriminate| | |].
           ++ injection E as _ _ <- <-. destruct (O2 a Ea) as [O2a _].
              split; [|split]; cbn [l_alt_mirror l_alt_inc l_index]; [discriminate|intros b [= <-]; auto|discriminate].
           ++ injection E as _ _ <- <-.
              split; [|split]; cbn [l_alt_mirror l_alt_inc l_index]; [discriminate|intros b [= <-]; auto|discriminate].
           ++ injection E as _ _ <- <-.
              split; [|split]; cbn [l_alt_mirror l_alt_inc l_index]; [discriminate|discriminate|auto].
      * destruct present; [|discriminate]. cbn [new_of l_index] in E.
        destruct (mirror_long i).
        -- cbn [find_inc update_rorp l_index l_alt_inc orb] in E. injection E as _ _ <- <-.
           split; [|split]; cbn [l_alt_mirror l_alt_inc l_index]; [intros b [= <-]; auto|discriminate|discriminate].
        -- destruct (find_inc inc_long i (InMirror i) None None (dec_Z (p_next s))) as [[ai' c'] u'] eqn:Fi.
           cbn [update_rorp l_index l_alt_mirror orb] in E.
           destruct (find_inc_cases _ _ _ _ _ _ _ _ Fi) as [[a [X _]]|[[a [_ [Ea _]]]|[[_ [_ [-> [_ [-> [Ni Li]]]]]]|[_ [_ [-> [_ [-> Hi]]]]]]]]; [discriminate|discriminate| |].
           ++ injection E as _ _ <- <-.
              split; [|split]; cbn [l_alt_mirror l_alt_inc l_index]; [discriminate|intros b [= <-]; auto|discriminate].
           ++ injection E as _ _ <- <-.
              split; [|split]; cbn [l_alt_mirror l_alt_inc l_index]; [discriminate|discriminate|auto].
    + apply filter_In in Hr as [Hr _]. eapply rec_ok_mono; [exact T|auto].
  - intros j a H. unfold s' in *. cbn [p_trace p_next] in *. destruct used.
    + destruct H as [[= <- <-]|H]; [exists (p_next s); split; [reflexivity|lia]|]. destruct (I2 _ _ H) as [z [-> L]]. exists z. split; [reflexivity|lia].
    + exact (I2 j a H).
  - unfold s'. cbn [p_trace]. destruct used; [|exact I3]. cbn [map snd]. constructor; [|exact I3].
    intros H. apply in_map_iff in H as [[j a] [Ea H]]. cbn [snd] in Ea. subst a. now apply Fresh in H.
Qed.

Definition first_backup : pst := mk_pst [] 1 [].
Lemma psteps_inv s : psteps first_backup s -> pinv s.
Proof.
  intros H. remember first_backup as s0 eqn:E0. induction H as [x|s1 s2 s3 Hs IH S].
  - subst x. split; [intros r H; destruct H|]. split; [intros i a H; destruct H|constructor].
  - apply (pstep_inv s2); auto.
Qed.

Lemma nodup_snd {A B} (l : list (A * B)) x y b : NoDup (map snd l) -> In (x, b) l -> In (y, b) l -> x = y.
Proof.
  induction l as [|[u v] l IH]; intros N H1 H2; [destruct H1|]. cbn [map snd] in N. inversion N as [|? ? N1 N2]; subst.
  destruct H1 as [H1|H1], H2 as [H2|H2].
  - congruence.
  - exfalso. apply N1. apply in_map_iff. exists (y, b). split; [cbn [snd]; congruence|assumption].
  - exfalso. apply N1. apply in_map_iff. exists (x, b). split; [cbn [snd]; congruence|assumption].
  - auto.
Qed.

(** Over any history of backups: two different files never share a place, neither in the
    mirror nor for their increments. *)
Theorem C25_places_distinct : forall s r1 r2, psteps first_backup s ->
  In r1 (p_rec s) -> In r2 (p_rec s) -> l_index r1 <> l_index r2 ->
  look_mirror r1 <> look_mirror r2 /\ look_inc r1 <> look_inc r2 /\ look_mirror r1 <> look_inc r2.
Proof.
  intros s r1 r2 H H1 H2 Ne. destruct (psteps_inv _ H) as [I1 [_ I3]].
  destruct (I1 _ H1) as [A1 [B1 _]], (I1 _ H2) as [A2 [B2 _]].
  assert (X : forall a, In (l_index r1, a) (p_trace s) -> In (l_index r2, a) (p_trace s) -> False).
  { intros a T1 T2. apply Ne. eapply nodup_snd; eauto. }
  unfold look_mirror, look_inc.
  destruct (l_alt_mirror r1) as [a1|] eqn:E1, (l_alt_mirror r2) as [a2|] eqn:E2, (l_alt_inc r1) as [c1|] eqn:C1, (l_alt_inc r2) as [c2|] eqn:C2;
    (split; [|split]); intros Y; try discriminate Y; injection Y as Y; try congruence; rewrite Y in *;
    match goal with
    | _ => exact (X _ (proj1 (A1 _ eq_refl)) (proj1 (A2 _ eq_refl)))
    | _ => exact (X _ (proj1 (A1 _ eq_refl)) (proj1 (B2 _ eq_refl)))
    | _ => exact (X _ (proj1 (B1 _ eq_refl)) (proj1 (A2 _ eq_refl)))
    | _ => exact (X _ (proj1 (B1 _ eq_refl)) (proj1 (B2 _ eq_refl)))
    end.
Qed.

(** The names of increments are never used again for another file, even after the first
    one was deleted. *)
Theorem C25_names_for_ever : forall s i j a, psteps first_backup s ->
  In (i, a) (p_trace s) -> In (j, a) (p_trace s) -> i = j.
Proof. intros s i j a H. destruct (psteps_inv _ H) as [_ [_ I3]]. apply nodup_snd. exact I3. Qed.

(** What a backup stores is found by the restore: the increment of the old version goes to
    the place looked up with the metadata recorded for the old version; the new file goes
    to the place looked up with the metadata recorded for it. *)
Theorem C25_found_again : forall s i present m c new used old, psteps first_backup s ->
  recorded s i = Some old ->
  mirror_inc mirror_long inc_long (new_of i present) (Some old) (dec_Z (p_next s)) = Some (m, c, new, used) ->
  c = look_inc old /\ m = look_mirror old /\ used = false /\
  (forall r, new = Some r -> look_mirror r = m /\ look_inc r = c).
Proof.
  intros s i present m c new used old H Ro E. destruct (psteps_inv _ H) as [I1 _].
  apply recorded_in in Ro as [Io Eo]. destruct (I1 _ Io) as [O1 [O2 O3]]. rewrite Eo in *.
  unfold mirror_inc in E. rewrite Eo in E. unfold look_inc, look_mirror. rewrite Eo.
  destruct (l_alt_mirror old) as [a|] eqn:Am.
  - cbn [find_inc] in E. injection E as <- <- <- <-. split; [reflexivity|]. split; [reflexivity|]. split; [reflexivity|].
    intros r Hr. destruct present; [|discriminate]. injection Hr as <-. split; reflexivity.
  - destruct (find_inc inc_long i (InMirror i) None (l_alt_inc old) (dec_Z (p_next s))) as [[ai' c'] u'] eqn:Fi.
    destruct (find_inc_cases _ _ _ _ _ _ _ _ Fi) as [[a [X _]]|[[a [_ [Ea [-> [-> ->]]]]]|[[_ [Ea [-> [-> [-> [Ni Li]]]]]]|[_ [Ea [-> [-> [-> Hi]]]]]]]]; [discriminate| | |].
    + rewrite Ea. injection E as <- <- <- <-. split; [reflexivity|]. split; [reflexivity|]. split; [reflexivity|].
      intros r Hr. destruct present; [|discriminate]. injection Hr as <-. split; reflexivity.
    + destruct (O3 eq_refl Ea) as [X|X]; congruence.
    + rewrite Ea. injection E as <- <- <- <-. split; [reflexivity|]. split; [reflexivity|]. split; [reflexivity|].
      intros r Hr. destruct present; [|discriminate]. injection Hr as <-. split; reflexivity.
Qed.
(** The same for a file which did not exist before (its "missing" increment goes to the
    place its later increments will be looked for). *)
Theorem C25_new_found : forall i next m c new used,
  mirror_inc mirror_long inc_long (new_of i true) None next = Some (m, c, new, used) ->
  exists r, new = Some r /\ l_index r = i /\ look_mirror r = m /\ look_inc r = c.
Proof.
  intros i next m c new used E. unfold mirror_inc in E. cbn [new_of l_index] in E.
  destruct (mirror_long i).
  - cbn [find_inc] in E. injection E as <- <- <- <-. eexists. repeat split.
  - destruct (find_inc inc_long i (InMirror i) None None next) as [[ai' c'] u'] eqn:Fi.
    destruct (find_inc_cases _ _ _ _ _ _ _ _ Fi) as [[a [X _]]|[[a [_ [Ea _]]]|[[_ [_ [-> [-> [-> _]]]]]|[_ [_ [-> [-> [-> _]]]]]]]]; [discriminate|discriminate| |];
      injection E as <- <- <- <-; eexists; repeat split.
Qed.
End Places.
Print Assumptions C25_places_distinct.
Print Assumptions C25_names_for_ever.
Print Assumptions C25_found_again.
Print Assumptions C25_new_found.

(** If the limit on names shrinks (the repository moved to another file system), the
    increment of a file already recorded goes to a new name which is recorded nowhere when
    the file is being deleted. *)
Theorem C25_limit_changed_refuted : exists c used,
  mirror_inc (fun _ => false) (fun _ => true) None (Some (mk_lrorp [bs "f"] None None)) (bs "1") =
    Some (InMirror [bs "f"], c, None, used) /\ c <> look_inc (mk_lrorp [bs "f"] None None).
Proof. do 2 eexists. split; [reflexivity|discriminate]. Qed.

Example names_ex : exists s g,
  run empty_ln [] [Ask; Make (bs "1") (bs ".t.diff.gz"); Ask; Make (bs "2") []; Stop; Delete (bs "2"); Ask] s g /\
  g = [bs "3"; bs "2"; bs "1"].
Proof.
  do 2 eexists. split.
  - eapply run_ask; [reflexivity|]. eapply run_make; [now left|right; now eexists|].
    eapply run_ask; [reflexivity|]. eapply run_make; [now left|now left|].
    eapply run_stop, run_del, run_ask; [reflexivity|]. apply run_nil.
  - reflexivity.
Qed.
Example places_ex : exists s, psteps (fun _ => false) (fun i => Nat.leb 1 (length i)) first_backup s /\
  p_rec s = [mk_lrorp [bs "b"] None (Some (bs "2")); mk_lrorp [bs "a"] None (Some (bs "1"))].
Proof.
  eexists. split.
  - eapply ps_one; [eapply ps_one; [apply ps_nil|]|].
    + eapply (p_one _ _ first_backup [bs "a"] true). reflexivity.
    + eapply (p_one _ _ _ [bs "b"] true). reflexivity.
  - reflexivity.
Qed.

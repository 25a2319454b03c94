(** * C26: verification finds every mismatch; C41: comparison reports the differences *)
From Coq Require Import List ZArith Bool Ascii Lia.
From Verif Require Import Base L_Base M_Iter L_Iter M_Hardlinks S_Hardlinks L_Hardlinks P_Hardlinks M_CopyFile P_CopyFile P_Iter M_Verify.
Import List ListNotations.
Local Open Scope Z_scope.

(** ** Verification *)
Notation ventry := (lfile * option (list bytes))%type.
(** regular files of a listing *)
Definition regs (l : list ventry) : list ventry := filter (fun p => f_reg (fst p)) l.
(** the checksum recorded for a file: with hard links, the one of the first name *)
Definition recorded (files : list lfile) (x : lfile) : option bytes :=
  match find (partner x) files with Some y => f_sha1 y | None => f_sha1 x end.
Definition has_checksum (h : option bytes) : Prop := exists c s, h = Some (c :: s).
Definition no_checksum (h : option bytes) : bool := match h with Some (_ :: _) => false | _ => true end.

Section V.
Variable sha1 : bytes -> bytes.
Definition wrong (p : ventry * option bytes) : bool :=
  match snd p, snd (fst p) with
  | Some (c :: s), Some chunks => negb (beq_bytes (compute_sha1_fp sha1 chunks) (c :: s))
  | _, _ => false
  end.
Definition unread (p : ventry * option bytes) : bool :=
  negb (no_checksum (snd p)) && match snd (fst p) with None => true | Some _ => false end.

Lemma lor_absorb a b : Z.lor (Z.lor a b) b = Z.lor a b.
Proof. now rewrite <- Z.lor_assoc, Z.lor_diag. Qed.
Lemma lor_mid code (a b : bool) x y :
  Z.lor (Z.lor code x) (Z.lor (if a then x else 0) (if b then y else 0)) = Z.lor code (Z.lor x (if b then y else 0)).
Proof.
  destruct a; rewrite <- !Z.lor_assoc; f_equal.
  - now rewrite Z.lor_assoc, Z.lor_diag.
Qed.
Lemma lor_mid2 code (a b : bool) x y :
  Z.lor (Z.lor code y) (Z.lor (if a then x else 0) (if b then y else 0)) = Z.lor code (Z.lor (if a then x else 0) y).
Proof.
  rewrite (Z.lor_comm (if a then x else 0)), lor_mid. f_equal. apply Z.lor_comm.
Qed.

Lemma verify_loop_spec : forall l t code b n,
  let hs := combine (regs l) (hashes t (map fst (regs l))) in
  match verify_loop sha1 t l code b n with
  | None => existsb unread hs = true
  | Some (res, _, _) => existsb unread hs = false /\
      res = Z.lor code (Z.lor (if existsb wrong hs then RET_FILE_ERR else 0)
                              (if existsb (fun p => no_checksum (snd p)) hs then RET_FILE_WARN else 0))
  end.
Proof.
  induction l as [|[x d] l IH]; intros t code b n; cbn [verify_loop regs filter fst].
  - cbn. now rewrite Z.lor_0_r.
  - destruct (f_reg x) eqn:R; cbn [negb]; [|apply IH].
    cbn [map fst hashes]. destruct (get_hash t x) as [h t'] eqn:G. cbn [combine existsb]. fold (regs l).
    destruct h as [[|c s]|].
    + cbn zeta. change (unread (x, d, @Some bytes [])) with false. change (wrong (x, d, @Some bytes [])) with false. cbn [snd fst no_checksum negb andb orb].
      pose proof (IH t' (Z.lor code RET_FILE_WARN) b (S n)) as H. cbn zeta in H.
      destruct (verify_loop sha1 t' l (Z.lor code RET_FILE_WARN) b (S n)) as [[[res ?] ?]|]; [|exact H].
      destruct H as [-> ->]. split; [reflexivity|]. apply lor_mid2.
    + destruct d as [chunks|].
      * cbn zeta. change (unread (x, Some chunks, Some (c :: s))) with false. change (wrong (x, Some chunks, Some (c :: s))) with (negb (beq_bytes (compute_sha1_fp sha1 chunks) (c :: s))). cbn [snd fst no_checksum negb andb orb].
        destruct (beq_bytes (compute_sha1_fp sha1 chunks) (c :: s)) eqn:E; cbn [negb orb].
        -- pose proof (IH t' code b n) as H. cbn zeta in H. destruct (verify_loop sha1 t' l code b n) as [[[res ?] ?]|]; exact H.
        -- pose proof (IH t' (Z.lor code RET_FILE_ERR) (S b) n) as H. cbn zeta in H.
           destruct (verify_loop sha1 t' l (Z.lor code RET_FILE_ERR) (S b) n) as [[[res ?] ?]|]; [|exact H].
           destruct H as [-> ->]. split; [reflexivity|]. apply lor_mid.
      * reflexivity.
    + cbn zeta. change (unread (x, d, @None bytes)) with false. change (wrong (x, d, @None bytes)) with false. cbn [snd fst no_checksum negb andb orb].
      pose proof (IH t' (Z.lor code RET_FILE_WARN) b (S n)) as H. cbn zeta in H.
      destruct (verify_loop sha1 t' l (Z.lor code RET_FILE_WARN) b (S n)) as [[[res ?] ?]|]; [|exact H].
      destruct H as [-> ->]. split; [reflexivity|]. apply lor_mid2.
Qed.
End V.

Lemma combine_map_r {A B} (f : A -> B) l : combine l (map f l) = map (fun x => (x, f x)) l.
Proof. induction l as [|x l IH]; [reflexivity|]. cbn. now rewrite IH. Qed.
Lemma compute_sha1_ok sha1 chunks : (forall b, In b chunks -> b <> []) -> compute_sha1_fp sha1 chunks = sha1 (concat chunks).
Proof. intros N. unfold compute_sha1_fp, hash_open, hash_close. rewrite read_all_ok by exact N. reflexivity. Qed.

(** What the answer of "verify" means: success exactly if every regular file has a recorded
    checksum and reads back as bytes with this checksum; the error bit exactly if the bytes
    of some file don't have the checksum recorded; the warning bit exactly if some file has no
    checksum recorded.  It ends with an exception exactly if a file with a checksum
    cannot be read. *)
Theorem C26_verify : forall sha1 (l : list ventry),
  let files := map fst (regs l) in
  consistent files ->
  (forall x chunks b, In (x, Some chunks) l -> In b chunks -> b <> []) ->
  (forall code, verify sha1 l = Some code ->
    (code = RET_OK <-> forall x d, In (x, d) l -> f_reg x = true ->
        exists chunks h, d = Some chunks /\ recorded files x = Some h /\ h <> [] /\ sha1 (concat chunks) = h) /\
    (Z.testbit code 2 = true <-> exists x chunks h, In (x, Some chunks) l /\ f_reg x = true /\
        recorded files x = Some h /\ h <> [] /\ sha1 (concat chunks) <> h) /\
    (Z.testbit code 3 = true <-> exists x d, In (x, d) l /\ f_reg x = true /\ ~ has_checksum (recorded files x))) /\
  (verify sha1 l = None <-> exists x, In (x, None) l /\ f_reg x = true /\ has_checksum (recorded files x)).
Proof.
  intros sha1 l files CO NE.
  pose proof (verify_loop_spec sha1 l [] RET_OK 0 0) as H. cbn zeta in H. fold files in H.
  rewrite (C24_first_checksum_for_all files CO) in H. unfold files in H at 2 4 6 8.
  rewrite map_map, combine_map_r in H. fold files in H.
  set (hs := map (fun p : ventry => (p, match find (partner (fst p)) files with Some y => f_sha1 y | None => f_sha1 (fst p) end)) (regs l)) in H.
  assert (HS : forall p h, In (p, h) hs <-> In p l /\ f_reg (fst p) = true /\ h = recorded files (fst p)).
  { intros p h. unfold hs. rewrite in_map_iff. split.
    - intros [q [[= -> <-] Q]]. apply filter_In in Q as [Q R]. auto.
    - intros [I [R ->]]. exists p. split; [reflexivity|]. apply filter_In. auto. }
  assert (HW : existsb (wrong sha1) hs = true <-> exists x chunks h, In (x, Some chunks) l /\ f_reg x = true /\
        recorded files x = Some h /\ h <> [] /\ sha1 (concat chunks) <> h).
  { rewrite existsb_exists. split.
    - intros [[[x d] h] [I W]]. apply HS in I as [I [R E]]. unfold wrong in W. cbn [fst snd] in *.
      destruct h as [[|c s]|]; try discriminate. destruct d as [chunks|]; [|discriminate].
      apply negb_true_iff, beq_bytes_false in W. rewrite compute_sha1_ok in W by (intros b; eapply NE; eauto).
      exists x, chunks, (c :: s). repeat split; auto. discriminate.
    - intros (x & chunks & h & I & R & E & N & W). exists ((x, Some chunks), Some h). split; [apply HS; auto|].
      unfold wrong. cbn [fst snd]. destruct h as [|c s]; [congruence|]. apply negb_true_iff, beq_bytes_false.
      rewrite compute_sha1_ok by (intros b; eapply NE; eauto). exact W. }
  assert (HN : forall h, no_checksum h = true <-> ~ has_checksum h).
  { intros [[|c s]|]; cbn [no_checksum]; split; try discriminate; auto.
    - intros _ (c & s & X). discriminate.
    - intros X. exfalso. apply X. now exists c, s.
    - intros _ (c & s & X). discriminate. }
  assert (HC : existsb (fun p => no_checksum (snd p)) hs = true <-> exists x d, In (x, d) l /\ f_reg x = true /\ ~ has_checksum (recorded files x)).
  { rewrite existsb_exists. split.
    - intros [[[x d] h] [I W]]. apply HS in I as [I [R E]]. cbn [fst snd] in *. subst h. exists x, d. rewrite <- HN. auto.
    - intros (x & d & I & R & W). exists ((x, d), recorded files x). split; [apply HS; auto|]. now apply HN. }
  assert (HU : existsb unread hs = true <-> exists x, In (x, None) l /\ f_reg x = true /\ has_checksum (recorded files x)).
  { rewrite existsb_exists. split.
    - intros [[[x d] h] [I W]]. apply HS in I as [I [R E]]. unfold unread in W. cbn [fst snd] in *. subst h.
      apply andb_true_iff in W as [W1 W2]. destruct d; [discriminate|]. exists x. repeat split; auto.
      destruct (recorded files x) as [[|c s]|]; try discriminate. now exists c, s.
    - intros (x & I & R & (c & s & E)). exists ((x, None), recorded files x). split; [apply HS; auto|].
      unfold unread. cbn [fst snd]. now rewrite E. }
  unfold verify. destruct (verify_loop sha1 [] l RET_OK 0 0) as [[[res b] n]|].
  - destruct H as [Hu Hr]. unfold RET_OK in Hr. rewrite Z.lor_0_l in Hr. split.
    + intros code [= <-]. split; [|split].
      * split.
        -- intros E0 x d I R. rewrite E0 in Hr. unfold RET_OK in Hr.
           destruct (existsb (wrong sha1) hs) eqn:EW; [destruct (existsb (fun p => no_checksum (snd p)) hs); discriminate|].
           destruct (existsb (fun p => no_checksum (snd p)) hs) eqn:EC; [discriminate|].
           destruct (recorded files x) as [[|c s]|] eqn:ER.
           ++ exfalso. assert (X : false = true); [|discriminate]. apply HC. exists x, d. repeat split; auto. rewrite ER. intros (? & ? & ?). discriminate.
           ++ destruct d as [chunks|].
              ** exists chunks, (c :: s). repeat split; auto; [discriminate|].
                 destruct (list_eq_dec ascii_dec (sha1 (concat chunks)) (c :: s)) as [Q|Q]; [exact Q|]. exfalso.
                 assert (X : false = true); [|discriminate]. apply HW. exists x, chunks, (c :: s). repeat split; auto. discriminate.
              ** exfalso. rewrite (proj2 HU) in Hu; [discriminate|]. exists x. repeat split; auto. rewrite ER. now exists c, s.
           ++ exfalso. assert (X : false = true); [|discriminate]. apply HC. exists x, d. repeat split; auto. rewrite ER. intros (? & ? & ?). discriminate.
        -- intros A. rewrite Hr.
           destruct (existsb (wrong sha1) hs) eqn:EW.
           { destruct (proj1 HW eq_refl) as (x & chunks & h & I & R & E & N & W). destruct (A _ _ I R) as (ch' & h' & E1 & E2 & _ & E4). congruence. }
           destruct (existsb (fun p => no_checksum (snd p)) hs) eqn:EC; [|reflexivity].
           destruct (proj1 HC eq_refl) as (x & d & I & R & W). destruct (A _ _ I R) as (ch' & h' & E1 & E2 & N & E4). exfalso. apply W. rewrite E2.
           destruct h' as [|c s]; [congruence|]. now exists c, s.
      * rewrite <- HW, Hr. destruct (existsb (wrong sha1) hs), (existsb (fun p => no_checksum (snd p)) hs); split; (reflexivity || discriminate).
      * rewrite <- HC, Hr. destruct (existsb (wrong sha1) hs), (existsb (fun p => no_checksum (snd p)) hs); split; (reflexivity || discriminate).
    + split; [discriminate|]. intros X. apply HU in X. congruence.
  - split; [discriminate|]. split; [|reflexivity]. intros _. now apply HU.
Qed.
Print Assumptions C26_verify.

Example verify_ex :
  let x := mk_lfile [bs "a"] true 1 (1, 1) (Some (bs "ab")) in
  let y := mk_lfile [bs "b"] true 1 (2, 1) None in
  let d := mk_lfile [bs "c"] false 1 (3, 1) None in
  let sha1 (b : bytes) := b in
  verify sha1 [(x, Some [bs "a"; bs "b"]); (d, None)] = Some RET_OK /\
  verify sha1 [(x, Some [bs "a"; bs "c"]); (d, None)] = Some RET_FILE_ERR /\
  verify sha1 [(x, Some [bs "a"; bs "c"]); (y, Some []); (d, None)] = Some 12 /\
  verify sha1 [(x, None)] = None.
Proof. repeat split. Qed.

(** ** Comparison *)
Section C.
Context {attr : Type}.
Notation cfile := (@cfile attr).
Variable eqr : cfile -> cfile -> bool.

(** What has to be reported: [dc] tells for two regular files whether their data differ (if
    data are compared at all). *)
Inductive should_report (dc : option (cfile -> cfile -> bool)) (src repo : list cfile) : idx -> reason -> Prop :=
| SR_new s : In s src -> (forall r, In r repo -> c_index r <> c_index s) ->
    should_report dc src repo (c_index s) RNew
| SR_deleted r : In r repo -> (forall s, In s src -> c_index s <> c_index r) ->
    should_report dc src repo (c_index r) RDeleted
| SR_both s r f : In s src -> In r repo -> c_index s = c_index r -> dc = Some f ->
    c_reg s = true -> c_reg r = true -> (eqr s r = false \/ f s r = true) ->
    should_report dc src repo (c_index s) (RBoth (negb (eqr s r)) (f s r))
| SR_changed s r : In s src -> In r repo -> c_index s = c_index r ->
    (dc = None \/ c_reg s = false \/ c_reg r = false) -> eqr s r = false ->
    should_report dc src repo (c_index s) RChanged.

Lemma pairs_in (l1 l2 : list cfile) : listing c_index l1 -> listing c_index l2 ->
  forall p, In p (collate2 c_index c_index l1 l2) <->
  match p with
  | (Some x, Some y) => In x l1 /\ In y l2 /\ c_index x = c_index y
  | (Some x, None) => In x l1 /\ forall y, In y l2 -> c_index y <> c_index x
  | (None, Some y) => In y l2 /\ forall x, In x l1 -> c_index x <> c_index y
  | (None, None) => False
  end.
Proof.
  intros L1 L2 p. pose proof (proj1 (listing_sorted _ _) L1) as S1. pose proof (proj1 (listing_sorted _ _) L2) as S2.
  pose proof (collate2_sorted c_index c_index l1 l2 S1 S2) as SP.
  assert (U : forall p q, In p (collate2 c_index c_index l1 l2) -> In q (collate2 c_index c_index l1 l2) ->
             pair_key c_index c_index p = pair_key c_index c_index q -> p = q).
  { intros q1 q2 H1 H2 E. pose proof (find_key_in _ _ _ SP H1) as F1. pose proof (find_key_in _ _ _ SP H2) as F2.
    rewrite E, F2 in F1. congruence. }
  destruct p as [[x|] [y|]].
  - split; [intros H; exact (collate2_sound _ _ _ _ _ H)|]. intros (H1 & H2 & E).
    destruct (C14_collate_two _ _ c_index c_index l1 l2 L1 L2) as (_ & _ & _ & _ & _ & H). auto.
  - split.
    + intros H. pose proof (collate2_sound _ _ _ _ _ H) as H1. cbn in H1. split; [exact H1|].
      intros y Hy E. destruct (C14_collate_two _ _ c_index c_index l1 l2 L1 L2) as (_ & _ & _ & _ & _ & G).
      specialize (G x y H1 Hy (eq_sym E)). specialize (U _ _ H G eq_refl). discriminate.
    + intros [H N]. destruct (collate2_complete_l c_index c_index l1 l2 x S1 S2 H) as [(y & Hy & E & _)|[_ G]]; [|exact G].
      exfalso. now apply (N y).
  - split.
    + intros H. pose proof (collate2_sound _ _ _ _ _ H) as H1. cbn in H1. split; [exact H1|].
      intros x Hx E. destruct (C14_collate_two _ _ c_index c_index l1 l2 L1 L2) as (_ & _ & _ & _ & _ & G).
      specialize (G x y Hx H1 E). specialize (U _ _ H G (eq_sym E)). discriminate.
    + intros [H N]. destruct (collate2_complete_r c_index c_index l1 l2 y S1 S2 H) as [(x & Hx & E & _)|[_ G]]; [|exact G].
      exfalso. now apply (N x).
  - split; [|intros []]. intros H. now apply collate2_sound in H.
Qed.

(** one pair *)
Definition pair_report (dc : option (cfile -> cfile -> bool)) (p : option cfile * option cfile) : option (@reason) :=
  basic_report eqr (fst p) (snd p)
    (match dc, p with
     | Some f, (Some s, Some r) => if called (Some s) (Some r) then Some (f s r) else None
     | _, _ => None
     end).
Lemma report1_in i w j o : In (i, w) (report1 j o) <-> i = j /\ o = Some w.
Proof.
  destruct o as [x|]; cbn; split.
  - intros [[= -> ->]|[]]. auto.
  - intros [-> [= ->]]. auto.
  - intros [].
  - intros [_ H]. discriminate.
Qed.
Lemma reports_spec dc src repo : listing c_index src -> listing c_index repo ->
  (forall x, In x src \/ In x repo -> c_exists x = true) ->
  forall i w, In (i, w) (flat_map (fun p => report1 (pair_index (fst p) (snd p)) (pair_report dc p)) (collate2 c_index c_index src repo)) <->
    should_report dc src repo i w.
Proof.
  intros L1 L2 EX i w. rewrite in_flat_map. split.
  - intros [p [Hp H]]. apply report1_in in H as [-> H]. apply (pairs_in _ _ L1 L2) in Hp.
    destruct p as [[s|] [r|]]; cbn [fst snd pair_index] in *; unfold pair_report in H; cbn [fst snd] in H.
    + destruct Hp as (Hs & Hr & E). unfold basic_report, called in H. rewrite (EX s (or_introl Hs)), (EX r (or_intror Hr)) in H. cbn [negb andb] in H.
      destruct dc as [f|]; [destruct (c_reg s) eqn:R1, (c_reg r) eqn:R2|]; cbn [andb] in H.
      * destruct (eqr s r) eqn:Q, (f s r) eqn:F; cbn [andb negb] in H; try discriminate; injection H as <-.
        -- replace (RBoth false true) with (RBoth (negb (eqr s r)) (f s r)) by (now rewrite Q, F). eapply SR_both; eauto.
        -- replace (RBoth true true) with (RBoth (negb (eqr s r)) (f s r)) by (now rewrite Q, F). eapply SR_both; eauto.
        -- replace (RBoth true false) with (RBoth (negb (eqr s r)) (f s r)) by (now rewrite Q, F). eapply SR_both; eauto.
      * destruct (eqr s r) eqn:Q; try discriminate; injection H as <-. eapply SR_changed; eauto.
      * destruct (eqr s r) eqn:Q; try discriminate; injection H as <-. eapply SR_changed; eauto.
      * destruct (eqr s r) eqn:Q; try discriminate; injection H as <-. eapply SR_changed; eauto.
      * destruct (eqr s r) eqn:Q; try discriminate; injection H as <-. eapply SR_changed; eauto.
    + destruct Hp as [Hs N]. cbn in H. injection H as <-. now apply SR_new.
    + destruct Hp as [Hr N]. cbn in H. rewrite (EX r (or_intror Hr)) in H. injection H as <-. now apply SR_deleted.
    + destruct Hp.
  - intros H. destruct H as [s Hs N|r Hr N|s r f Hs Hr E D R1 R2 W|s r Hs Hr E D W].
    + exists (Some s, None). split; [now apply (pairs_in _ _ L1 L2)|]. apply report1_in. cbn. auto.
    + exists (None, Some r). split; [now apply (pairs_in _ _ L1 L2)|]. apply report1_in. cbn. rewrite (EX r (or_intror Hr)). auto.
    + exists (Some s, Some r). split; [now apply (pairs_in _ _ L1 L2)|]. apply report1_in. cbn [fst snd pair_index]. split; [reflexivity|].
      unfold pair_report, basic_report, called. cbn [fst snd]. subst dc. rewrite (EX s (or_introl Hs)), (EX r (or_intror Hr)), R1, R2. cbn [negb andb].
      destruct (eqr s r), (f s r); cbn [negb andb]; try reflexivity. destruct W; discriminate.
    + exists (Some s, Some r). split; [now apply (pairs_in _ _ L1 L2)|]. apply report1_in. cbn [fst snd pair_index]. split; [reflexivity|].
      unfold pair_report, basic_report, called. cbn [fst snd]. rewrite (EX s (or_introl Hs)), (EX r (or_intror Hr)), W. cbn [negb andb].
      destruct dc as [f|]; [|reflexivity]. destruct D as [D|[D|D]]; [discriminate| |]; rewrite D; cbn [andb]; rewrite ?andb_false_r; reflexivity.
Qed.

(** Comparing metadata reports exactly the paths which are only on one side or whose
    entries aren't equal. *)
Theorem C41_meta : forall src repo, listing c_index src -> listing c_index repo ->
  (forall x, In x src \/ In x repo -> c_exists x = true) ->
  forall i w, In (i, w) (compare_meta eqr src repo) <-> should_report None src repo i w.
Proof.
  intros src repo L1 L2 EX i w. rewrite <- (reports_spec None src repo L1 L2 EX).
  unfold compare_meta. rewrite !in_flat_map. split; intros (p & Hp & H); exists p; split; auto.
Qed.

Variable sha1 : bytes -> bytes.
(** The repository's files whose checksum is looked at: regular ones which are regular in
    the source, too. *)
Definition compared (src repo : list cfile) : list cfile :=
  filter (fun r => c_reg r && existsb (fun s => idx_eqb (c_index s) (c_index r) && c_reg s) src) repo.
(** data differ as far as the checksums tell *)
Definition hash_differs (rec : lfile -> option bytes) (s r : cfile) : bool :=
  match rec (c_link r) with
  | None | Some [] => false
  | Some h => negb (c_size s =? c_size r) || match c_data s with Some d => negb (beq_bytes (sha1 d) h) | None => true end
  end.
Definition cmpd (l : list (option cfile * option cfile)) : list lfile :=
  flat_map (fun p => match p with (Some s, Some r) => if called (Some s) (Some r) then [c_link r] else [] | _ => [] end) l.
Lemma hash_loop_spec rec : forall l t,
  hashes t (cmpd l) = map rec (cmpd l) ->
  (forall s r, In (Some s, Some r) l -> c_reg s = true -> c_data s <> None) ->
  compare_hash_loop sha1 eqr t l =
    Some (flat_map (fun p => report1 (pair_index (fst p) (snd p)) (pair_report (Some (hash_differs rec)) p)) l).
Proof.
  induction l as [|[[s|] [r|]] l IH]; intros t H D; [reflexivity| | | |]; cbn [compare_hash_loop flat_map fst snd].
  - unfold pair_report. cbn [fst snd]. cbn [cmpd flat_map] in H. fold (cmpd l) in H.
    assert (D' : forall s0 r0, In (Some s0, Some r0) l -> c_reg s0 = true -> c_data s0 <> None) by (intros s0 r0 I0; apply (D s0 r0); now right).
    destruct (called (Some s) (Some r)) eqn:C.
    + cbn [app hashes map] in H. destruct (get_hash t (c_link r)) as [h t'] eqn:G. injection H as H1 H2.
      rewrite (IH t' H2 D').
      assert (HC : hashes_changed sha1 h s r = Some (hash_differs rec s r)).
      { unfold hashes_changed, hash_differs. rewrite <- H1. destruct h as [[|c h]|]; try reflexivity.
        destruct (c_size s =? c_size r); [|reflexivity]. cbn [negb orb].
        destruct (c_data s) eqn:E; [reflexivity|]. exfalso. apply (D s r); auto; [now left|].
        unfold called in C. rewrite !andb_true_iff in C. tauto. }
      rewrite HC. reflexivity.
    + rewrite (IH t); auto.
  - unfold pair_report. cbn [fst snd]. rewrite (IH t); auto. intros s0 r0 I0. apply (D s0 r0). now right.
  - unfold pair_report. cbn [fst snd]. rewrite (IH t); auto. intros s0 r0 I0. apply (D s0 r0). now right.
  - unfold pair_report. cbn [fst snd]. rewrite (IH t); auto. intros s0 r0 I0. apply (D s0 r0). now right.
Qed.

Lemma sorted_same {T} (key : T -> idx) : forall l1 l2, sorted_by key l1 -> sorted_by key l2 ->
  (forall x, In x l1 <-> In x l2) -> l1 = l2.
Proof.
  induction l1 as [|x l1 IH]; intros [|y l2] S1 S2 H; [reflexivity| | |].
  - destruct (proj2 (H y)); now left.
  - destruct (proj1 (H x)); now left.
  - apply sorted_inv in S1 as [S1 F1]. apply sorted_inv in S2 as [S2 F2].
    assert (x = y) as ->.
    { destruct (proj1 (H x) (or_introl eq_refl)) as [E|H1]; [auto|]. destruct (proj2 (H y) (or_introl eq_refl)) as [E|H2]; [auto|].
      exfalso. eapply idx_lt_irrefl. eapply idx_lt_trans; [exact (F1 _ H2)|exact (F2 _ H1)]. }
    f_equal. apply IH; auto. intros z. split; intros Hz.
    + destruct (proj1 (H z) (or_intror Hz)) as [E|G]; [|exact G]. subst z. exfalso. eapply idx_lt_irrefl, F1, Hz.
    + destruct (proj2 (H z) (or_intror Hz)) as [E|G]; [|exact G]. subst z. exfalso. eapply idx_lt_irrefl, F2, Hz.
Qed.
Lemma sorted_filter {T} (key : T -> idx) f : forall l, sorted_by key l -> sorted_by key (filter f l).
Proof.
  induction l as [|x l IH]; intros S; [constructor|]. apply sorted_inv in S as [S F]. cbn.
  destruct (f x); [|auto]. apply sorted_cons; auto. intros y Hy. apply filter_In in Hy. apply F. tauto.
Qed.
Definition cmpdc (l : list (option cfile * option cfile)) : list cfile :=
  flat_map (fun p => match p with (Some s, Some r) => if called (Some s) (Some r) then [r] else [] | _ => [] end) l.
Lemma cmpd_map l : cmpd l = map c_link (cmpdc l).
Proof.
  induction l as [|[[s|] [r|]] l IH]; [reflexivity| | | |]; cbn [cmpd cmpdc flat_map]; fold (cmpd l); fold (cmpdc l); auto.
  destruct (called (Some s) (Some r)); cbn [app map]; now rewrite IH.
Qed.
Lemma cmpdc_in l r : In r (cmpdc l) <-> exists s, In (Some s, Some r) l /\ called (Some s) (Some r) = true.
Proof.
  unfold cmpdc. rewrite in_flat_map. split.
  - intros ([[s|] [r'|]] & Hp & H); try destruct H. destruct (called (Some s) (Some r')) eqn:C; [|destruct H].
    destruct H as [->|[]]. eauto.
  - intros (s & H & C). exists (Some s, Some r). rewrite C. split; [assumption|now left].
Qed.

Lemma cmpdc_sorted src repo : listing c_index src -> listing c_index repo ->
  sorted_by c_index (cmpdc (collate2 c_index c_index src repo)).
Proof.
  intros L1 L2. pose proof (proj1 (listing_sorted _ _) L1) as S1. pose proof (proj1 (listing_sorted _ _) L2) as S2.
  pose proof (collate2_sorted c_index c_index src repo S1 S2) as SP.
  assert (K : forall s r, In (Some s, Some r) (collate2 c_index c_index src repo) -> c_index s = c_index r)
    by (intros s r H; apply collate2_sound in H; tauto).
  induction SP as [|p l S IH F]; [constructor|].
  assert (K' : forall s r, In (Some s, Some r) l -> c_index s = c_index r) by (intros; apply K; now right).
  rewrite Forall_forall in F.
  destruct p as [[s|] [r|]]; cbn [cmpdc flat_map]; fold (cmpdc l); auto.
  destruct (called (Some s) (Some r)) eqn:C; [|auto]. cbn [app]. apply sorted_cons; auto.
  intros r' H'. apply cmpdc_in in H' as (s' & H' & _). specialize (F _ H'). cbn in F.
  rewrite <- (K s r), <- (K' s' r'); auto. now left.
Qed.
Lemma compared_spec src repo : listing c_index src -> listing c_index repo ->
  (forall x, In x src \/ In x repo -> c_exists x = true) ->
  cmpd (collate2 c_index c_index src repo) = map c_link (compared src repo).
Proof.
  intros L1 L2 EX. rewrite cmpd_map. f_equal. apply (sorted_same c_index).
  - now apply cmpdc_sorted.
  - apply sorted_filter. now apply listing_sorted.
  - intros r. rewrite cmpdc_in. unfold compared. rewrite filter_In, andb_true_iff, existsb_exists. split.
    + intros (s & H & C). apply (pairs_in _ _ L1 L2) in H as (Hs & Hr & E). unfold called in C. rewrite !andb_true_iff in C.
      split; [exact Hr|]. split; [tauto|]. exists s. split; [exact Hs|]. rewrite andb_true_iff, idx_eqb_eq. tauto.
    + intros (Hr & R & s & Hs & E). rewrite andb_true_iff, idx_eqb_eq in E. exists s. split.
      * apply (pairs_in _ _ L1 L2). tauto.
      * unfold called. rewrite (EX s), (EX r) by auto. cbn [andb]. rewrite R. rewrite (proj2 E). reflexivity.
Qed.

(** Comparing checksums reports exactly the paths which are only on one side, whose entries
    aren't equal, or whose data differ according to the checksum recorded (with hard
    links: for the first name looked at); files without a recorded checksum count as
    unchanged. *)
Theorem C41_hash : forall src repo, listing c_index src -> listing c_index repo ->
  (forall x, In x src \/ In x repo -> c_exists x = true) ->
  (forall s, In s src -> c_reg s = true -> c_data s <> None) ->
  let links := map c_link (compared src repo) in
  consistent links ->
  exists reports, compare_hash sha1 eqr src repo = Some reports /\
    forall i w, In (i, w) reports <-> should_report (Some (hash_differs (recorded links))) src repo i w.
Proof.
  intros src repo L1 L2 EX RD links CO. eexists. split.
  - unfold compare_hash. apply (hash_loop_spec (recorded links)).
    + rewrite (compared_spec src repo L1 L2 EX). fold links. apply C24_first_checksum_for_all. exact CO.
    + intros s r H R. apply (pairs_in _ _ L1 L2) in H as (Hs & _). auto.
  - intros i w. now apply reports_spec.
Qed.

(** *** full *)
Variable content : cfile -> bytes.
Hypothesis eqr_data : forall s r d, eqr s (with_data r d) = eqr s r.
Definition data_differs (s r : cfile) : bool :=
  negb (c_size s =? c_size r) || match c_data s with Some d => negb (beq_bytes d (content r)) | None => true end.
Lemma full_loop_spec disk : forall l,
  (forall s o, In (Some s, o) l -> disk (c_index s) = Some s /\ c_exists s = true) ->
  (forall o r, In (o, Some r) l -> c_exists r = true) ->
  (forall s r, In (Some s, Some r) l -> c_index s = c_index r) ->
  (forall r, In (None, Some r) l -> disk (c_index r) = None) -> ~ In (None, None) l ->
  compare_full_loop eqr disk (flat_map (fun p => attach eqr content (fst p) (snd p)) l) =
    Some (flat_map (fun p => report1 (pair_index (fst p) (snd p)) (pair_report (Some data_differs) p)) l).
Proof using eqr_data.
  induction l as [|p l IH]; intros H1 H2 H3 H4 H5; [reflexivity|].
  assert (IH' := IH (fun s o H => H1 s o (or_intror H)) (fun o r H => H2 o r (or_intror H)) (fun s r H => H3 s r (or_intror H)) (fun r H => H4 r (or_intror H)) (fun H => H5 (or_intror H))).
  clear IH. destruct p as [[s|] [r|]]; cbn [flat_map fst snd attach].
  - destruct (H1 s _ (or_introl eq_refl)) as [DS ES]. pose proof (H2 _ r (or_introl eq_refl)) as ER.
    pose proof (H3 s r (or_introl eq_refl)) as EI.
    assert (CI : forall d, c_index (with_data r d) = c_index s) by (intros d; rewrite EI; reflexivity).
    unfold pair_report. cbn [fst snd]. unfold called. rewrite ES, ER. cbn [andb].
    destruct (c_reg s) eqn:R1; cbn [negb andb].
    + destruct (c_reg r) eqn:R2; cbn [andb].
      * destruct (c_size s =? c_size r) eqn:SZ; cbn [app compare_full_loop].
        -- rewrite CI, DS. unfold called. change (c_exists (with_data r (Some (content r)))) with (c_exists r).
           change (c_reg (with_data r (Some (content r)))) with (c_reg r). rewrite ES, ER, R1, R2. cbn [andb].
           assert (DC : data_changed s (with_data r (Some (content r))) = Some (data_differs s r)).
           { unfold data_changed, data_differs, with_data. cbn [c_size c_data]. rewrite SZ. cbn [negb orb]. now destruct (c_data s). }
           rewrite DC. cbn [option_map]. rewrite IH'. cbn [pair_index].
           unfold basic_report. change (c_exists (with_data r (Some (content r)))) with (c_exists r).
           change (c_reg (with_data r (Some (content r)))) with (c_reg r). rewrite eqr_data. reflexivity.
        -- rewrite CI, DS. unfold called. change (c_exists (with_data r None)) with (c_exists r).
           change (c_reg (with_data r None)) with (c_reg r). rewrite ES, ER, R1, R2. cbn [andb].
           assert (DC : data_changed s (with_data r None) = Some (data_differs s r)).
           { unfold data_changed, data_differs, with_data. cbn [c_size c_data]. rewrite SZ. reflexivity. }
           rewrite DC. cbn [option_map]. rewrite IH'. cbn [pair_index].
           unfold basic_report. change (c_exists (with_data r None)) with (c_exists r).
           change (c_reg (with_data r None)) with (c_reg r). rewrite eqr_data. reflexivity.
      * cbn [app compare_full_loop]. rewrite CI, DS. unfold called. change (c_exists (with_data r None)) with (c_exists r).
        change (c_reg (with_data r None)) with (c_reg r). rewrite ES, ER, R1, R2. cbn [andb]. rewrite IH'. cbn [pair_index].
        unfold basic_report. change (c_exists (with_data r None)) with (c_exists r).
        change (c_reg (with_data r None)) with (c_reg r). rewrite eqr_data. reflexivity.
    + destruct (eqr s r) eqn:Q; cbn [app].
      * rewrite IH'. unfold basic_report. rewrite ES, ER, Q. reflexivity.
      * cbn [compare_full_loop]. rewrite CI, DS. unfold called. change (c_exists (with_data r None)) with (c_exists r).
        change (c_reg (with_data r None)) with (c_reg r). rewrite ES, ER, R1. cbn [andb]. rewrite IH'. cbn [pair_index].
        unfold basic_report. change (c_exists (with_data r None)) with (c_exists r). rewrite eqr_data. reflexivity.
  - destruct (H1 s _ (or_introl eq_refl)) as [DS ES]. cbn [app compare_full_loop].
    change (c_index (deleted_at s)) with (c_index s). rewrite DS. unfold called. change (c_exists (deleted_at s)) with false. cbn [andb].
    rewrite IH'. reflexivity.
  - pose proof (H2 _ r (or_introl eq_refl)) as ER. cbn [app compare_full_loop].
    change (c_index (with_data r None)) with (c_index r). rewrite (H4 r (or_introl eq_refl)). rewrite IH'.
    unfold pair_report, basic_report. cbn [fst snd]. change (c_exists (with_data r None)) with (c_exists r). rewrite ER. reflexivity.
  - exfalso. apply H5. now left.
Qed.

Lemma find_key_find i (l : list cfile) : find (fun s => idx_eqb (c_index s) i) l = find_key c_index i l.
Proof. induction l as [|x l IH]; [reflexivity|]. cbn. now rewrite IH. Qed.
(** Comparing all data, when nothing on the disk is left out by the selection: exactly the
    paths which are only on one side, whose entries aren't equal or whose bytes differ. *)
Theorem C41_full : forall src repo, listing c_index src -> listing c_index repo ->
  (forall x, In x src \/ In x repo -> c_exists x = true) ->
  exists reports,
    compare_full eqr content (fun i => find (fun s => idx_eqb (c_index s) i) src) src repo = Some reports /\
    forall i w, In (i, w) reports <-> should_report (Some data_differs) src repo i w.
Proof using eqr_data.
  clear sha1. intros src repo L1 L2 EX. eexists. split.
  - unfold compare_full. apply full_loop_spec.
    + intros s o H. assert (Hs : In s src) by (destruct o; apply (pairs_in _ _ L1 L2) in H; tauto).
      split; [|auto]. rewrite find_key_find. apply (find_key_in c_index src s); [now apply listing_sorted|exact Hs].
    + intros o r H. assert (Hr : In r repo) by (destruct o; apply (pairs_in _ _ L1 L2) in H; tauto). auto.
    + intros s r H. apply (pairs_in _ _ L1 L2) in H. tauto.
    + intros r H. apply (pairs_in _ _ L1 L2) in H as [_ N].
      destruct (find (fun s => idx_eqb (c_index s) (c_index r)) src) as [s|] eqn:F; [|reflexivity].
      apply find_some in F as [Hs E]. apply idx_eqb_eq in E. exfalso. now apply (N s).
    + intros H. now apply (pairs_in _ _ L1 L2) in H.
  - intros i w. now apply reports_spec.
Qed.
End C.
Print Assumptions C41_meta.
Print Assumptions C41_hash.
Print Assumptions C41_full.

(** The exit code says whether there was a report. *)
Theorem C41_exit_code : forall l, print_reports l = RET_OK <-> l = [].
Proof. intros [|x l]; split; (reflexivity || discriminate). Qed.

(** No difference reported by the full comparison: both sides have the same paths, equal
    entries and the same bytes. *)
Theorem C41_full_same_bytes : forall (attr : Type) (eqr : @cfile attr -> cfile -> bool) content,
  (forall s r d, eqr s (with_data r d) = eqr s r) ->
  forall src repo, listing c_index src -> listing c_index repo ->
  (forall x, In x src \/ In x repo -> c_exists x = true) ->
  compare_full eqr content (fun i => find (fun s => idx_eqb (c_index s) i) src) src repo = Some [] ->
  (forall s, In s src -> exists r, In r repo /\ c_index r = c_index s) /\
  (forall r, In r repo -> exists s, In s src /\ c_index s = c_index r) /\
  (forall s r, In s src -> In r repo -> c_index s = c_index r ->
     eqr s r = true /\ (c_reg s = true -> c_reg r = true -> c_data s = Some (content r))).
Proof.
  intros attr eqr content ED src repo L1 L2 EX H.
  destruct (C41_full eqr content ED src repo L1 L2 EX) as (reports & E & R). rewrite E in H. injection H as ->.
  assert (N : forall i w, ~ should_report eqr (Some (data_differs content)) src repo i w) by (intros i w X; apply R in X; destruct X).
  assert (DI : forall (i : idx) (l : list (@cfile attr)), (exists r, In r l /\ c_index r = i) \/ forall r, In r l -> c_index r <> i).
  { intros i l. induction l as [|x l IH]; [right; intros r []|].
    destruct (list_eq_dec (list_eq_dec ascii_dec) (c_index x) i) as [Q|Q]; [left; exists x; split; [now left|auto]|].
    destruct IH as [(r & Hr & Er)|IH]; [left; exists r; split; [now right|auto]|]. right. intros r [<-|Hr]; auto. }
  split; [|split].
  - intros s Hs. destruct (DI (c_index s) repo) as [X|X]; [exact X|]. exfalso. eapply N. apply SR_new; eauto.
  - intros r Hr. destruct (DI (c_index r) src) as [X|X]; [exact X|]. exfalso. eapply N. apply SR_deleted; eauto.
  - intros s r Hs Hr EI. destruct (c_reg s) eqn:R1, (c_reg r) eqn:R2.
    + destruct (eqr s r) eqn:Q.
      * split; [reflexivity|]. intros _ _. destruct (data_differs content s r) eqn:D.
        -- exfalso. eapply N. eapply SR_both; eauto.
        -- unfold data_differs in D. apply orb_false_iff in D as [_ D]. destruct (c_data s) as [d|]; [|discriminate].
           apply negb_false_iff, beq_bytes_true in D. now subst.
      * exfalso. eapply N. eapply SR_both; eauto.
    + split; [|discriminate]. destruct (eqr s r) eqn:Q; [reflexivity|]. exfalso. eapply N. eapply SR_changed; eauto.
    + split; [|discriminate]. destruct (eqr s r) eqn:Q; [reflexivity|]. exfalso. eapply N. eapply SR_changed; eauto.
    + split; [|discriminate]. destruct (eqr s r) eqn:Q; [reflexivity|]. exfalso. eapply N. eapply SR_changed; eauto.
Qed.
Print Assumptions C41_full_same_bytes.

Definition cx (n : bytes) (nl key : Z) (h : option bytes) (d : option bytes) : @cfile unit :=
  mk_cfile (mk_lfile [n] true nl (key, 1) h) true 2 tt d.
(** A hard linked file changed in the source is not reported if the name which carries the
    checksum no longer exists there. *)
Theorem C41_hash_first_link_gone_refuted :
  let src := [cx (bs "b") 1 7 None (Some (bs "zz"))] in
  let repo := [cx (bs "a") 2 5 (Some (bs "xy")) None; cx (bs "b") 2 5 None None] in
  compare_hash (fun b => b) (fun _ _ => true) src repo = Some [([bs "a"], RDeleted)].
Proof. reflexivity. Qed.
(** Comparing all data ends with an exception if the selection leaves out a file which is in
    the repository and still on the disk with the same size. *)
Theorem C41_full_excluded_refuted :
  let f := cx (bs "a") 1 7 None (Some (bs "zz")) in
  compare_full (fun _ _ => true) (fun _ => bs "zz") (fun i => if idx_eqb i [bs "a"] then Some f else None) [] [f] = None.
Proof. reflexivity. Qed.

Example compare_ex :
  let src := [cx (bs "a") 1 7 None (Some (bs "zz")); cx (bs "b") 1 8 None (Some (bs "yy")); cx (bs "d") 1 9 None (Some (bs "q"))] in
  let repo := [cx (bs "a") 1 5 (Some (bs "zz")) None; cx (bs "b") 1 5 (Some (bs "yz")) None; cx (bs "c") 1 5 None None] in
  compare_hash (fun b => b) (fun _ _ => true) src repo =
    Some [([bs "b"], RBoth false true); ([bs "c"], RDeleted); ([bs "d"], RNew)] /\
  compare_full (fun _ _ => true) (fun _ => bs "zz") (fun i => find (fun s => idx_eqb (c_index s) i) src) src repo =
    Some [([bs "b"], RBoth false true); ([bs "c"], RDeleted); ([bs "d"], RNew)].
Proof. split; reflexivity. Qed.

(** * C31: extended attributes and access control lists *)
From Coq Require Import List ZArith Bool Ascii Lia Sorting.Sorted.
From Verif Require Import Base L_Base M_Quoting M_Iter L_Iter P_Iter M_Rorp M_Meta S_Meta L_Meta L_MetaAttr P_Meta
  M_EaAcl S_EaAcl L_EaAcl.
Import List ListNotations.
Local Open Scope Z_scope.

Definition within (d i : idx) : bool := if inside_dec d i then true else false.
Lemma within_prefix d i : within d i = is_prefix d i.
Proof.
  unfold within. destruct (inside_dec d i) as [H|H]; symmetry.
  - now apply is_prefix_spec.
  - destruct (is_prefix d i) eqn:E2; [|reflexivity]. exfalso. apply H. now apply is_prefix_spec.
Qed.
Definition has_attributes (e : eas) : bool := match ea_dict e with [] => false | _ => true end.

Lemma Forall2_eq {A} (l m : list A) : Forall2 eq l m -> m = l.
Proof. induction 1; congruence. Qed.
Lemma Forall2_length {A B} (R : A -> B -> Prop) l m : Forall2 R l m -> length l = length m.
Proof. induction 1; cbn; congruence. Qed.
Lemma filter_listing {A} (key : A -> idx) p l : listing key l -> listing key (filter p l).
Proof.
  unfold listing. induction 1 as [|x l H IH F]; [constructor|]. cbn [filter]. destruct (p x); [|exact IH].
  constructor; [exact IH|]. rewrite Forall_forall in *. intros y Hy. apply filter_In in Hy. now apply F.
Qed.
Lemma filter_filter {A} (p q : A -> bool) l : filter p (filter q l) = filter (fun x => q x && p x) l.
Proof.
  induction l as [|x l IH]; [reflexivity|]. cbn [filter]. destruct (q x); cbn [filter andb]; [|exact IH].
  destruct (p x); now rewrite IH.
Qed.
Lemma filter_Forall {A} (P : A -> Prop) p l : Forall P l -> Forall P (filter p l).
Proof. rewrite !Forall_forall. intros H x Hx. apply filter_In in Hx. now apply H. Qed.
Definition top (restrict : option idx) : idx := match restrict with Some i => i | None => [] end.

(** Reading the file of extended attributes, whole or for a subtree, gives exactly the
    attributes written, names and values. *)
Theorem C31_attributes_read_back : forall size restrict l,
  reads size -> Forall plain_eas l -> listing ea_index l ->
  ea_get size restrict (ea_file l) =
  filter (fun e => has_attributes e && within (top restrict) (ea_index e)) l.
Proof.
  intros size restrict l Hs Hl HL.
  assert (HC : Forall (codes FILE_HDR acl_index ea_parse ea_index ea_record ea_index eq) (filter has_attributes l)).
  { apply filter_Forall. eapply Forall_impl; [|exact Hl]. intros e. apply ea_codes. }
  assert (HS : StronglySorted (fun a b => idx_lt (ea_index a) (ea_index b)) (filter has_attributes l)).
  { apply listing_sorted. now apply filter_listing. }
  pose proof (codes_get FILE_HDR FILE_HDR_ne FILE_HDR_nl acl_index ea_parse ea_index size Hs ea_record ea_index eq _ restrict HC HS) as Q.
  apply Forall2_eq in Q. unfold ea_get, ea_file, write_file. etransitivity; [exact Q|].
  rewrite filter_filter. apply filter_ext. intros e. now rewrite within_prefix.
Qed.

Lemma acl_records_spec l : Forall acl_ok l ->
  acl_records l = Some (map acl_wr (filter extended l)).
Proof.
  induction 1 as [|a l Ha Hl IH]; [reflexivity|]. cbn [acl_records filter].
  assert (HB : is_basic a = Some (negb (extended a))).
  { destruct Ha as (_ & _ & _ & [[H1 H2]|H]); unfold is_basic, extended.
    - now rewrite H1, H2.
    - destruct (a_list a) as [|e el] eqn:EL; [cbn in H; lia|].
      replace (Nat.ltb (length (e :: el)) 3) with false by (symmetry; apply Nat.ltb_ge; exact H).
      f_equal. rewrite negb_orb. f_equal.
      + destruct (Nat.eqb_spec (length (e :: el)) 3) as [->|N]; [reflexivity|]. symmetry.
        apply negb_false_iff, Nat.ltb_lt. lia.
      + destruct (a_default a); reflexivity. }
  rewrite HB. destruct (extended a) eqn:EX; cbn [negb]; [|exact IH].
  destruct (acl_codes a Ha) as [HN _].
  { intros E. destruct Ha as (_ & _ & _ & [[H1 H2]|H]); [|rewrite E in H; cbn in H; lia].
    unfold extended in EX. rewrite H1, H2 in EX. discriminate. }
  rewrite IH. cbn [map]. unfold acl_wr at 2. destruct (acl_record a); [reflexivity|congruence].
Qed.
Lemma extended_ne a : acl_ok a -> extended a = true -> a_list a <> [].
Proof.
  intros Ha EX E. destruct Ha as (_ & _ & _ & [[H1 H2]|H]); [|rewrite E in H; cbn in H; lia].
  unfold extended in EX. rewrite H1, H2 in EX. discriminate.
Qed.
(** Every ACL which says more than the permissions can be written, and reading the file
    gives it back. *)
Theorem C31_acls_read_back : forall size restrict l,
  reads size -> Forall acl_ok l -> listing a_index l ->
  exists content, acl_file l = Some content /\
  Forall2 same_acl (filter (fun a => extended a && within (top restrict) (a_index a)) l)
    (acl_get size restrict content).
Proof.
  intros size restrict l Hs Hl HL. unfold acl_file. rewrite acl_records_spec by assumption. eexists. split; [reflexivity|].
  assert (HC : Forall (codes FILE_HDR acl_index acl_parse a_index acl_wr a_index same_acl) (filter extended l)).
  { rewrite Forall_forall in *. intros a Ha. apply filter_In in Ha as [Ha EX].
    apply (acl_codes a (Hl _ Ha)). now apply extended_ne; [apply Hl|]. }
  assert (HS : StronglySorted (fun a b => idx_lt (a_index a) (a_index b)) (filter extended l)).
  { apply listing_sorted. now apply filter_listing. }
  pose proof (codes_get FILE_HDR FILE_HDR_ne FILE_HDR_nl acl_index acl_parse a_index size Hs acl_wr a_index same_acl _ restrict HC HS) as Q.
  rewrite filter_filter in Q. unfold acl_get, write_file.
  rewrite (filter_ext _ (fun x => extended x && is_prefix (top restrict) (a_index x))) by (intros; now rewrite within_prefix).
  exact Q.
Qed.
(** An ACL read back compares equal to the one written: an unchanged ACL isn't taken for a change. *)
Theorem C31_acl_unchanged_recognised : forall a b, acl_ok a -> same_acl a b -> acl_eq a b = Some true.
Proof.
  intros a b Ha (_ & HL & HD).
  assert (HC : forall l m, Forall entry_ok l -> Forall2 same_entry l m -> cmp_entries l m = true).
  { intros l m Hl F. induction F as [|e f l m (T & P & O) F IH]; [reflexivity|]. cbn [cmp_entries].
    inversion Hl as [|? ? He Hl']; subst. rewrite T, P, Ascii.eqb_refl, N.eqb_refl, IH by assumption.
    rewrite andb_true_r. cbn [andb]. rewrite O. destruct He as (_ & [[_ E]|[_ (id & n & E & Hn)]]); rewrite E; [reflexivity|].
    destruct n as [n|]; cbn [pair_eq opt_eqb]; [|now rewrite Z.eqb_refl].
    destruct n as [|c n]; [now destruct Hn as ((c & [] & _) & _)|]. cbn [andb orb].
    now rewrite beq_bytes_refl. }
  destruct Ha as (_ & H1 & H2 & H3).
  assert (LL : length (a_list b) = length (a_list a)) by (symmetry; eapply Forall2_length; exact HL).
  assert (LD : length (a_default b) = length (a_default a)) by (symmetry; eapply Forall2_length; exact HD).
  assert (HB : is_basic b = is_basic a).
  { unfold is_basic. destruct (a_list a), (a_list b), (a_default a), (a_default b); try discriminate; try reflexivity;
    now rewrite LL. }
  unfold acl_eq. destruct (is_basic a) as [[]|] eqn:E.
  - exact HB.
  - now rewrite (HC _ _ H1 HL), (HC _ _ H2 HD).
  - exfalso. unfold is_basic in E. destruct H3 as [[E1 E2]|H3]; [rewrite E1, E2 in E; discriminate|].
    destruct (a_list a) as [|e l] eqn:EL; [cbn in H3; lia|].
    replace (Nat.ltb (length (e :: l)) 3) with false in E by (symmetry; apply Nat.ltb_ge; exact H3). discriminate.
Qed.

(** ** joining *)
Lemma collate_sub {A B} (ka : A -> idx) (kb : B -> idx) (p : A -> bool) (R : A -> B -> Prop) l : forall m,
  listing ka l -> Forall2 R (filter p l) m -> (forall x y, R x y -> kb y = ka x) ->
  Forall2 (fun x r => fst r = Some x /\ match snd r with Some y => p x = true /\ R x y | None => p x = false end)
    l (collate2 ka kb l m).
Proof.
  induction l as [|x l IH]; intros m HL F HK.
  - inversion F; subst. constructor.
  - inversion HL as [|? ? HL' HF]; subst. cbn [filter] in F. destruct (p x) eqn:E.
    + inversion F as [|? y ? m' HR F']; subst. cbn [collate2]. rewrite (HK _ _ HR), idx_cmp_refl.
      constructor; [now split|]. now apply IH.
    + assert (HM : m = [] \/ exists y m', m = y :: m' /\ idx_lt (ka x) (kb y)).
      { destruct m as [|y m']; [now left|]. right. exists y, m'. split; [reflexivity|].
        inversion F as [|z y0 zs m0 HR F0 E1 E2]; subst y0 m0. rewrite (HK _ _ HR). apply before_lt.
        rewrite Forall_forall in HF. apply HF. assert (Hz : In z (filter p l)) by (rewrite <- E1; now left).
        now apply filter_In in Hz. }
      destruct HM as [->|(y & m' & -> & Hlt)].
      * assert (N : forall x', In x' l -> p x' = false).
        { intros x' Hx. destruct (p x') eqn:E'; [|reflexivity]. assert (In x' (filter p l)) by (now apply filter_In).
          inversion F as [Q|]. rewrite <- Q in H. destruct H. }
        cbn [collate2]. constructor; [now split|]. clear -N. induction l as [|z l IH]; constructor.
        -- split; [reflexivity|]. apply N. now left.
        -- apply IH. intros; apply N; now right.
      * cbn [collate2]. unfold idx_lt in Hlt. rewrite Hlt. constructor; [now split|]. now apply IH.
Qed.
Lemma join_sub {A B} (ka : A -> idx) (blank : idx -> B) (p : A -> bool) (R : A -> B -> Prop) l cs :
  Forall2 (fun x r => fst r = Some x /\ match snd r with Some y => p x = true /\ R x y | None => p x = false end) l cs ->
  exists out, join_meta blank ka cs = Some out /\
    Forall2 (fun x o => fst o = x /\ if p x then R x (snd o) else snd o = blank (ka x)) l out.
Proof.
  induction 1 as [|x [a b] l cs [H1 H2] F (out & E & G)].
  - exists []. now split.
  - cbn [fst snd] in *. rewrite H1. cbn [join_meta]. rewrite E. eexists. split; [reflexivity|]. constructor; [|exact G].
    cbn [fst snd]. split; [reflexivity|]. destruct b; [destruct H2 as [-> H2]; exact H2|now rewrite H2].
Qed.
Lemma filter_map {A B} (f : A -> B) p l : filter p (map f l) = map f (filter (fun x => p (f x)) l).
Proof. induction l as [|x l IH]; [reflexivity|]. cbn [map filter]. destruct (p (f x)); cbn [map]; now rewrite IH. Qed.
Lemma Forall2_map_l {A B C} (f : A -> B) (R : B -> C -> Prop) l m : Forall2 R (map f l) m -> Forall2 (fun x => R (f x)) l m.
Proof.
  revert m. induction l as [|x l IH]; intros m H; inversion H; subst; constructor; auto.
Qed.
Lemma map_listing {A B} (ka : A -> idx) (kb : B -> idx) (f : A -> B) l : (forall x, kb (f x) = ka x) -> listing ka l -> listing kb (map f l).
Proof.
  intros E. unfold listing. induction 1 as [|x l H IH F]; [constructor|]. cbn [map]. constructor; [exact IH|].
  apply Forall_map. eapply Forall_impl; [|exact F]. intros. now rewrite !E.
Qed.

(** For the files of a session (or those below a path), joining the main metadata with the attributes
    gives each file its own attributes, none if it had none. *)
Theorem C31_each_file_its_own_attributes : forall (A : Type) (path : A -> idx) (attrs : A -> list (bytes * bytes)) files size restrict,
  reads size -> listing path files -> Forall (fun x => plain_eas (mk_eas (path x) (attrs x))) files ->
  let eas_of x := mk_eas (path x) (attrs x) in
  let wanted := filter (fun x => within (top restrict) (path x)) files in
  join_meta (fun i => mk_eas i []) path
    (collate2 path ea_index wanted (ea_get size restrict (ea_file (map eas_of files))))
  = Some (map (fun x => (x, eas_of x)) wanted).
Proof.
  intros A path attrs files size restrict Hs HL HP eas_of wanted.
  rewrite C31_attributes_read_back; [|assumption|now apply Forall_map|now apply (map_listing path)].
  rewrite filter_map. cbn [ea_index eas_of].
  assert (HF : Forall2 (fun x y => y = eas_of x) (filter (fun x => has_attributes (eas_of x)) wanted)
     (map eas_of (filter (fun x => has_attributes (eas_of x) && within (top restrict) (path x)) files))).
  { unfold wanted. rewrite filter_filter.
    rewrite (filter_ext (fun x => has_attributes (eas_of x) && within (top restrict) (path x))
               (fun x => within (top restrict) (path x) && has_attributes (eas_of x)) (fun x => andb_comm _ _)).
    generalize (filter (fun x => within (top restrict) (path x) && has_attributes (eas_of x)) files). clear.
    intros l. induction l; constructor; [reflexivity|assumption]. }
  pose proof (collate_sub path ea_index _ _ wanted _ (filter_listing path _ _ HL) HF (fun x y E => f_equal ea_index E)) as HC.
  destruct (join_sub path (fun i => mk_eas i []) _ _ _ _ HC) as (out & E & G). rewrite E. f_equal. clear - G.
  induction G as [|x [y e] l out [H1 H2] G IH]; [reflexivity|]. cbn [fst snd map] in *. rewrite IH. f_equal. f_equal; [assumption|].
  destruct (has_attributes (eas_of x)) eqn:EH; [assumption|]. rewrite H2. unfold eas_of, has_attributes in *. cbn [ea_dict] in *.
  now destruct (attrs x).
Qed.
(** ... and each file its own ACL, or an empty one when the permissions say it all. *)
Theorem C31_each_file_its_own_acl : forall (A : Type) (path : A -> idx) (acl_of : A -> acl) files size restrict,
  reads size -> listing path files -> Forall (fun x => acl_ok (acl_of x)) files -> (forall x, a_index (acl_of x) = path x) ->
  let wanted := filter (fun x => within (top restrict) (path x)) files in
  exists content joined, acl_file (map acl_of files) = Some content /\
  join_meta (fun i => mk_acl i [] []) path (collate2 path a_index wanted (acl_get size restrict content)) = Some joined /\
  Forall2 (fun x o => fst o = x /\
     if extended (acl_of x) then same_acl (acl_of x) (snd o) else snd o = mk_acl (path x) [] []) wanted joined.
Proof.
  intros A path acl_of files size restrict Hs HL HP HI wanted.
  destruct (C31_acls_read_back size restrict (map acl_of files)) as (content & E1 & F).
  { assumption. } { now apply Forall_map. } { now apply (map_listing path). }
  rewrite filter_map in F. apply Forall2_map_l in F.
  assert (HF : Forall2 (fun x y => same_acl (acl_of x) y) (filter (fun x => extended (acl_of x)) wanted) (acl_get size restrict content)).
  { unfold wanted. rewrite filter_filter.
    rewrite (filter_ext _ (fun x => extended (acl_of x) && within (top restrict) (a_index (acl_of x)))); [exact F|].
    intros x. rewrite HI. apply andb_comm. }
  pose proof (collate_sub path a_index _ _ wanted _ (filter_listing path _ _ HL) HF) as HC.
  destruct (join_sub path (fun i => mk_acl i [] []) _ _ _ _ (HC (fun x y H => eq_trans (proj1 H) (HI x)))) as (out & E & G).
  exists content, out. repeat split; assumption.
Qed.

(** Names outside these bytes are not preserved: a space comes back as "\040". *)
Theorem C31_name_with_space_refuted :
  let e := mk_eas [bs "f"] [(bs "user.my tag", bs "v")] in
  ea_get (fun _ => 100%nat) None (ea_file [e]) = [mk_eas [bs "f"] [(bs "user.my\040tag", bs "v")]].
Proof. reflexivity. Qed.
(** A user whose name is a number is read back as the user with this id. *)
Theorem C31_numeric_user_refuted :
  let e := mk_entry (chr 117) (Some (Some 1000, Some (bs "42"))) 7 in
  let o t := mk_entry t None 4 in
  let a := mk_acl [bs "f"] [o (chr 85); e; o (chr 71); o (chr 79)] [] in
  exists content b, acl_file [a] = Some content /\ acl_get (fun _ => 100%nat) None content = [b] /\
    nth_error (a_list b) 1 = Some (mk_entry (chr 117) (Some (Some 42, None)) 7) /\ acl_eq a b = Some false.
Proof. do 2 eexists. repeat split. Qed.

(** ** examples *)
Example C31_ex_eas :
  let l := [mk_eas [] [(bs "user.a", bs "1"); (bs "user.b", [])]; mk_eas [bs "a b"] []; mk_eas [bs "a b"; bs "c"] [(bs "user.x", [chr 0; chr 255])]] in
  Forall plain_eas l /\ listing ea_index l /\ length (ea_get (fun n => S n) (Some [bs "a b"]) (ea_file l)) = 1%nat.
Proof.
  split; [|split].
  - assert (G : forall c : bytes, negb (beq_bytes c [] || mem_byte (chr 47) c) = true -> c <> [] /\ ~ In (chr 47) c).
    { intros c H. apply negb_true_iff, orb_false_iff in H as [H1 H2]. split; [now apply beq_bytes_false|].
      intros Hi. apply mem_byte_In in Hi. congruence. }
    assert (P : forall e, negb (idx_eqb (ea_index e) [bs "."]) = true ->
      forallb (fun c => negb (beq_bytes c [] || mem_byte (chr 47) c)) (ea_index e) = true -> NoDup (map fst (ea_dict e)) ->
      forallb (fun n => negb (beq_bytes n []) && forallb plain n) (map fst (ea_dict e)) = true -> plain_eas e).
    { intros e H1 H2 H3 H4. rewrite forallb_forall in H2, H4. repeat split.
      - intros E. rewrite E in H1. discriminate.
      - now apply G, H2.
      - now apply G, H2.
      - exact H3.
      - apply H4 in H. apply andb_true_iff in H as [H _]. now apply beq_bytes_false, negb_true_iff.
      - apply H4 in H. apply andb_true_iff in H as [_ H]. rewrite forallb_forall in H. now apply plain_spec, H.
      - apply H4 in H. apply andb_true_iff in H as [_ H]. rewrite forallb_forall in H. now apply plain_spec, H.
      - apply H4 in H. apply andb_true_iff in H as [_ H]. rewrite forallb_forall in H. apply H, plain_spec in H0. apply H0.
      - apply H4 in H. apply andb_true_iff in H as [_ H]. rewrite forallb_forall in H. apply H, plain_spec in H0. apply H0. }
    constructor; [|constructor; [|constructor; [|constructor]]]; apply P; try reflexivity; cbn [ea_dict map fst].
    + constructor; [|constructor; [intros []|constructor]]. intros [H|[]]. discriminate.
    + constructor.
    + constructor; [intros []|constructor].
  - apply (sorted_dec _ (fun x y => idx_ltb (ea_index x) (ea_index y))); [|reflexivity].
    intros x y H. now apply before_lt, idx_ltb_lt.
  - reflexivity.
Qed.
Example C31_ex_acl :
  let o t p := mk_entry t None p in
  let a := mk_acl [bs "d"] [o (chr 85) 7%N; mk_entry (chr 117) (Some (Some 1000, Some (bs "Ana"))) 6; o (chr 71) 5%N; o (chr 77) 7%N; o (chr 79) 0%N]
             [mk_entry (chr 103) (Some (Some 50, None)) 4] in
  acl_ok a /\ extended a = true /\
  option_map (fun c => map (fun b => acl_eq a b) (acl_get (fun _ => 7%nat) None c)) (acl_file [a]) = Some [Some true].
Proof.
  split; [|split; reflexivity]. split; [|split; [|split]].
  - split; [discriminate|]. intros c [<-|[]]. split; [discriminate|]. intros [H|[]]. discriminate.
  - repeat (constructor; [split; [reflexivity|]|]); [left|right|left|left|left|constructor]; cbn [e_tag e_pair].
    all: try (split; [vm_compute; tauto|reflexivity]).
    split; [vm_compute; tauto|]. exists 1000, (Some (bs "Ana")). split; [reflexivity|]. split; [|vm_compute; intuition discriminate].
    exists (chr 65). split; [now left|]. left. vm_compute. split; discriminate.
  - constructor; [|constructor]. split; [reflexivity|]. right. split; [vm_compute; tauto|]. now exists 50, None.
  - right. cbn. lia.
Qed.

Print Assumptions C31_attributes_read_back.
Print Assumptions C31_acls_read_back.
Print Assumptions C31_acl_unchanged_recognised.
Print Assumptions C31_each_file_its_own_attributes.
Print Assumptions C31_each_file_its_own_acl.
Print Assumptions C31_name_with_space_refuted.
Print Assumptions C31_numeric_user_refuted.
(** a name given twice: the last value counts, others are not touched *)
Fixpoint ea_get (d : list (bytes * bytes)) (n : bytes) : option bytes :=
  match d with [] => None | (m, w) :: r => if beq_bytes m n then Some w else ea_get r n end.
Theorem C31_set_attribute : forall d n v m, ea_get (ea_set d n v) m = if beq_bytes n m then Some v else ea_get d m.
Proof.
  intros d n v m. induction d as [|[a w] d IH]; [reflexivity|]. cbn [ea_set]. destruct (beq_bytes a n) eqn:E.
  - apply beq_bytes_true in E. subst a. cbn [ea_get]. now destruct (beq_bytes n m).
  - cbn [ea_get]. rewrite IH. destruct (beq_bytes a m) eqn:E2; [|reflexivity]. destruct (beq_bytes n m) eqn:E3; [|reflexivity].
    apply beq_bytes_true in E2, E3. subst. now rewrite beq_bytes_refl in E.
Qed.
Print Assumptions C31_set_attribute.


(** ** A changed ACL is recognised, an unchanged one isn't taken for a change *)
(** whom an entry is about: nobody in particular, a name, or (without a name) a number *)
Inductive who : Type := Nobody | Named (n : bytes) | Numbered (i : option Z).
Definition whom (e : entry) : who :=
  match e_pair e with
  | None => Nobody
  | Some (_, Some (c :: n)) => Named (c :: n)
  | Some (i, _) => Numbered i
  end.
Definition meaning (e : entry) : ascii * N * who := (e_tag e, e_perms e, whom e).
Lemma beq_bytes_iff a b : beq_bytes a b = true <-> a = b.
Proof. split; [apply beq_bytes_true|intros ->; apply beq_bytes_refl]. Qed.
Lemma opt_eqb_Z (i j : option Z) : opt_eqb Z.eqb i j = true <-> i = j.
Proof. destruct i, j; cbn; try rewrite Z.eqb_eq; split; congruence. Qed.
Lemma opt_eqb_b (i j : option bytes) : opt_eqb beq_bytes i j = true <-> i = j.
Proof. destruct i, j; cbn [opt_eqb]; try rewrite beq_bytes_iff; split; congruence. Qed.
Lemma pair_eq_whom e f : pair_eq (e_pair e) (e_pair f) = true <-> whom e = whom f.
Proof.
  unfold whom, pair_eq. destruct (e_pair e) as [[i n]|], (e_pair f) as [[j m]|].
  - rewrite orb_true_iff, andb_true_iff, opt_eqb_Z, opt_eqb_b.
    destruct n as [[|c n]|], m as [[|d m]|]; try rewrite opt_eqb_Z; try rewrite opt_eqb_b; split; intros Q;
    repeat match goal with H : _ \/ _ |- _ => destruct H | H : _ /\ _ |- _ => destruct H end;
    try solve [congruence | right; congruence | left; split; congruence | right; now inversion Q].
  - destruct n as [[|c n]|]; split; congruence.
  - destruct m as [[|c m]|]; split; congruence.
  - split; reflexivity.
Qed.
Lemma cmp_entries_meaning l : forall m, cmp_entries l m = true <-> map meaning l = map meaning m.
Proof.
  induction l as [|e l IH]; intros [|f m]; cbn [cmp_entries map]; try (split; congruence).
  rewrite !andb_true_iff, IH, Ascii.eqb_eq, N.eqb_eq, pair_eq_whom. unfold meaning. split.
  - intros (((-> & ->) & ->) & ->). reflexivity.
  - intros Q. inversion Q. auto.
Qed.
Lemma is_basic_extended a : acl_ok a -> is_basic a = Some (negb (extended a)).
Proof.
  intros (_ & _ & _ & [[E1 E2]|L]); unfold is_basic, extended.
  - now rewrite E1, E2.
  - destruct (a_list a) as [|e l] eqn:E; [cbn in L; lia|].
    replace (Nat.ltb (length (e :: l)) 3) with false by (symmetry; apply Nat.ltb_ge; exact L).
    f_equal. rewrite negb_orb, negb_involutive.
    f_equal; [|now destruct (a_default a)].
    destruct (Nat.eqb_spec (length (e :: l)) 3), (Nat.ltb_spec 3 (length (e :: l))); try reflexivity; lia.
Qed.
(** Two ACLs compare equal exactly if both say nothing beyond the permissions, or if they
    have the same entries in the same order, where an entry is about the same somebody if
    both have the same name, or none has a name and the numbers are the same. *)
Theorem C31_acl_comparison : forall a b, acl_ok a -> acl_ok b ->
  exists r, acl_eq a b = Some r /\
  (r = true <-> (extended a = false /\ extended b = false) \/
                (extended a = true /\ map meaning (a_list a) = map meaning (a_list b) /\
                 map meaning (a_default a) = map meaning (a_default b))).
Proof.
  intros a b Ha Hb. unfold acl_eq. rewrite (is_basic_extended a Ha), (is_basic_extended b Hb).
  destruct (extended a) eqn:Ea; cbn [negb].
  - eexists. split; [reflexivity|]. rewrite andb_true_iff, !cmp_entries_meaning. intuition congruence.
  - exists (negb (extended b)). split; [reflexivity|]. destruct (extended b); cbn; intuition congruence.
Qed.
(** A mask, a removed entry or another owner makes a difference. *)
Example acl_comparison_meets :
  let o t := mk_entry t None 4 in
  let u p n := mk_entry (chr 117) (Some (Some 1000, n)) p in
  let A l := mk_acl [bs "f"] ([o (chr 85); o (chr 71); o (chr 79)] ++ l) [] in
  Forall acl_ok [A [u 7%N (Some (bs "ann"))]; A []] /\
  acl_eq (A [u 7%N (Some (bs "ann"))]) (A [u 7%N (Some (bs "ann"))]) = Some true /\
  acl_eq (A [u 7%N (Some (bs "ann"))]) (A [u 7%N (Some (bs "bob"))]) = Some false /\
  acl_eq (A [u 7%N (Some (bs "ann"))]) (A [u 7%N None]) = Some false /\
  acl_eq (A [u 7%N None]) (A [o (chr 117)]) = Some false /\
  acl_eq (A [u 7%N None]) (A [u 6%N None]) = Some false /\
  acl_eq (A []) (A [u 6%N None]) = Some false /\ acl_eq (A [u 6%N None]) (A []) = Some false.
Proof.
  cbv zeta. repeat split; try (vm_compute; reflexivity).
  assert (G : good_path [bs "f"]).
  { split; [discriminate|]. intros c [<-|[]]. split; [discriminate|]. intros Q. cbn in Q. decompose [or] Q; try discriminate; assumption. }
  assert (O : forall t, In t (bs "UGMO") -> entry_ok (mk_entry t None 4)) by (intros t Ht; split; [reflexivity|now left]).
  assert (U : entry_ok (mk_entry (chr 117) (Some (Some 1000, Some (bs "ann"))) 7)).
  { split; [reflexivity|]. right. split; [now left|]. exists 1000, (Some (bs "ann")). split; [reflexivity|].
    split; [exists (chr 97); split; [now left|right; vm_compute; split; discriminate]|].
    repeat split; intros Q; cbn in Q; decompose [or] Q; try discriminate; assumption. }
  repeat apply Forall_cons; try apply Forall_nil; (split; [exact G|]); cbn [a_list a_default app length];
  (split; [|split; [apply Forall_nil|right; lia]]); repeat apply Forall_cons; try apply Forall_nil;
  solve [exact U | apply O; cbn; tauto].
Qed.
Print Assumptions C31_acl_comparison.

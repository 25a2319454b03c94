(** * C11, C13: metadata files *)
From Coq Require Import List ZArith Bool Ascii Lia Sorting.Sorted.
From Verif Require Import Base L_Base M_Quoting M_Iter L_Iter P_Iter M_Rorp M_Meta S_Meta L_Meta L_MetaAttr.
Import List ListNotations.
Local Open Scope Z_scope.

(** A file object returns at least one byte per read unless at its end. *)
Definition reads (size : nat -> nat) : Prop := forall n, (0 < size n)%nat.
Definition writable (x : rorp) : Prop :=
  good_path (r_index x) /\ (described (r_data x) \/ nothing (r_data x)).

(** Reading back a metadata file gives the descriptions written, in order, for
    any way of cutting the file into blocks. *)
Theorem C11_round_trip : forall size hl l recs,
  reads size -> Forall writable l -> map (attr_record hl) l = map Some recs ->
  Forall2 (stored_as hl) l (attr_get size None (write_file recs)).
Proof.
  intros size hl l recs Hs Hl E. unfold attr_get, get_objects. rewrite write_file_spec.
  assert (H : exists rcs ys, recs = map rec_text rcs /\ Forall is_rec rcs
     /\ parsed attr_parse rcs = ys /\ Forall2 (stored_as hl) l ys).
  { revert recs E. induction Hl as [|x l [Hp Hd] Hl IH]; intros recs E; destruct recs as [|r recs]; try discriminate.
    - exists [], []. repeat split; constructor.
    - cbn in E. injection E as E1 E2. destruct (IH _ E2) as (rcs & ys & -> & H2 & H3 & H4).
      destruct (attr_record_spec hl x r Hp Hd E1) as (rc & -> & R & _ & y & Hy & S).
      exists (rc :: rcs), (y :: ys). repeat split; [now constructor| |now constructor].
      cbn [parsed]. now rewrite Hy, H3. }
  destruct H as (rcs & ys & -> & H2 & H3 & H4). fold (recs_text rcs).
  change (bs "File ") with HDR.
  rewrite (iterate_spec HDR HDR_ne HDR_nl attr_index attr_parse r_index size Hs rcs H2). now rewrite H3.
Qed.
(** Every complete description can be written. *)
Theorem C11_everything_can_be_written : forall hl l, Forall writable l ->
  exists recs, map (attr_record hl) l = map Some recs.
Proof.
  induction 1 as [|x l [Hp Hd] Hl (recs & IH)]; [now exists []|].
  destruct (attr_record_some hl x Hd) as [r Hr]. exists (r :: recs). cbn [map]. now rewrite Hr, IH.
Qed.
(** Storing twice changes nothing more. *)
Theorem C11_stable : forall hl x y, described (r_data x) -> stored_as hl x y ->
  forall k, stored hl (r_data y) k = r_data y k.
Proof.
  intros hl x y D [_ H] k.
  destruct (de_type _ D) as (t & T & Ht).
  assert (Ty : r_data y KType = Some (VStr t)) by (rewrite H; unfold stored; now rewrite T).
  assert (HT : forall s, is_type s (r_data y) = is_type s (r_data x)) by (intros s; unfold is_type; now rewrite Ty, T).
  assert (Hl : linked_file hl (r_data y) = linked_file hl (r_data x)).
  { unfold linked_file, isreg. rewrite HT. destruct hl; [|reflexivity]. cbn [andb].
    destruct (is_type (bs "reg") (r_data x)) eqn:R; [|reflexivity]. cbn [andb].
    rewrite (H KNlink). unfold stored. rewrite T. unfold linked_file, isreg. rewrite R. cbn [andb].
    destruct (r_data x KNlink) as [[|n| |]|]; try reflexivity. destruct (1 <? n) eqn:E; [exact E|reflexivity]. }
  unfold stored. rewrite Ty. unfold isreg, issym in *. rewrite !HT, Hl.
  destruct k; rewrite ?H; unfold stored, isreg, issym; rewrite T; try reflexivity;
    try (now destruct (linked_file hl (r_data x)));
    try (match goal with |- context [is_type ?s ?d] => now destruct (is_type s d) end);
    try (match goal with |- context [match ?d ?k with Some _ => _ | None => _ end] => now destruct (d k) end).
  all: try (now destruct (is_type (bs "sym") (r_data x)); destruct (is_type (bs "dev") (r_data x))).
  all: unfold typed in T; rewrite T; now destruct (r_data x KMirrorname).
Qed.

(** A record which cannot be understood is left out, and costs no other record,
    wherever it is and however the file is cut into blocks. *)
Theorem C11_damaged_record_costs_only_itself : forall size hl l1 l2 recs1 recs2 name junk,
  reads size -> Forall writable l1 -> Forall writable l2 ->
  map (attr_record hl) l1 = map Some recs1 -> map (attr_record hl) l2 = map Some recs2 ->
  Forall (fun s => ~ In nl s /\ starts_with (bs "File ") s = false) junk -> ~ In nl name ->
  let damaged := concat (map (fun s => s ++ [nl]) ((bs "File " ++ name) :: junk)) in
  attr_parse damaged = None ->
  Forall2 (stored_as hl) (l1 ++ l2) (attr_get size None (concat recs1 ++ damaged ++ concat recs2)).
Proof.
  intros size hl l1 l2 recs1 recs2 name junk Hs H1 H2 E1 E2 Hj Hn damaged Hd.
  assert (HG : forall l recs, Forall writable l -> map (attr_record hl) l = map Some recs ->
     exists rcs, recs = map rec_text rcs /\ Forall is_rec rcs /\ Forall2 (stored_as hl) l (parsed attr_parse rcs)).
  { clear. intros l recs Hl. revert recs. induction Hl as [|x l [Hp Hd] Hl IH]; intros recs E; destruct recs as [|r recs]; try discriminate.
    - exists []. repeat split; constructor.
    - cbn in E. injection E as E1 E2. destruct (IH _ E2) as (rcs & -> & H2 & H3).
      destruct (attr_record_spec hl x r Hp Hd E1) as (rc & -> & R & _ & y & Hy & S).
      exists (rc :: rcs). repeat split; [now constructor|]. cbn [parsed]. rewrite Hy. now constructor. }
  destruct (HG l1 recs1 H1 E1) as (a & -> & A1 & A2). destruct (HG l2 recs2 H2 E2) as (b & -> & B1 & B2).
  set (bad := (bs "File " ++ name, junk)).
  assert (Hbad : is_rec bad).
  { split; [|split]; cbn [fst snd bad].
    - apply starts_with_spec. now exists name.
    - unfold one_line. rewrite in_app_iff. intros [H|H]; [now apply HDR_nl|now apply Hn].
    - exact Hj. }
  change damaged with (rec_text bad) in *.
  replace (concat (map rec_text a) ++ rec_text bad ++ concat (map rec_text b)) with (recs_text (a ++ bad :: b)).
  2:{ unfold recs_text. rewrite map_app, concat_app. reflexivity. }
  unfold attr_get, get_objects. change (bs "File ") with HDR.
  rewrite (iterate_spec HDR HDR_ne HDR_nl attr_index attr_parse r_index size Hs).
  - assert (Happ : forall a b, parsed attr_parse (a ++ b) = parsed attr_parse a ++ parsed attr_parse b).
    { clear. induction a as [|r a IH]; intros b; [reflexivity|]. cbn [parsed app]. destruct (attr_parse (rec_text r)); now rewrite IH. }
    rewrite Happ. cbn [parsed]. rewrite Hd. now apply Forall2_app.
  - apply Forall_app. split; [assumption|]. now constructor.
Qed.

(** A file owned by a user named "None" is read back as owned by nobody known. *)
Definition none_user : rorp := mk_rorp [bs "f"] (stat_dict (mk_stat TReg 1 384 1000 1000 5 6 1 100 100 100 (Some (bs "None")) None)).
Theorem C11_user_None_refuted :
  exists rec y, attr_record true none_user = Some rec
    /\ attr_get (fun _ => 1%nat) None (write_file [rec]) = [y]
    /\ r_data none_user KUname = Some (VStr (bs "None")) /\ r_data y KUname = Some VNone.
Proof. do 2 eexists. split; [vm_compute; reflexivity|]. split; [vm_compute; reflexivity|]. split; reflexivity. Qed.

(** Restricted reading: what lies below [index], nothing else, in order. *)
Definition inside_dec (d i : idx) : {inside d i} + {~ inside d i}.
Proof.
  destruct (is_prefix d i) eqn:E; [left|right].
  - now apply is_prefix_spec.
  - intros H. apply is_prefix_spec in H. congruence.
Defined.
Definition below (d : idx) (x : rorp) : bool := if inside_dec d (r_index x) then true else false.
Theorem C13_subtree : forall size hl l recs index,
  reads size -> Forall writable l -> listing r_index l -> map (attr_record hl) l = map Some recs ->
  Forall2 (stored_as hl) (filter (below index) l) (attr_get size (Some index) (write_file recs)).
Proof.
  intros size hl l recs index Hs Hl HL E.
  assert (Hbelow : forall d x, below d x = is_prefix d (r_index x)).
  { intros d x. unfold below. destruct (inside_dec d (r_index x)) as [H|H]; symmetry.
    - now apply is_prefix_spec.
    - destruct (is_prefix d (r_index x)) eqn:E2; [|reflexivity]. exfalso. apply H. now apply is_prefix_spec. }
  destruct index as [|c index'].
  { replace (filter (below []) l) with l; [now apply C11_round_trip|].
    symmetry. clear -Hbelow. induction l as [|x l IH]; [reflexivity|]. cbn [filter]. rewrite Hbelow, IH. reflexivity. }
  set (index := c :: index') in *.
  change (attr_get size (Some index) (write_file recs))
    with (starting_with HDR attr_index attr_parse r_index size index (write_file recs)).
  rewrite write_file_spec.
  assert (H : exists rcs, recs = map rec_text rcs /\ Forall is_rec rcs
     /\ map (rec_index HDR attr_index) rcs = map r_index l
     /\ Forall2 (fun x rc => exists y, attr_parse (rec_text rc) = Some y /\ stored_as hl x y) l rcs).
  { clear HL. revert recs E. induction Hl as [|x l [Hp Hd] Hl IH]; intros recs E; destruct recs as [|r recs]; try discriminate.
    - exists []. repeat split; constructor.
    - cbn in E. injection E as E1 E2. destruct (IH _ E2) as (rcs & -> & H2 & H3 & H4).
      destruct (attr_record_spec hl x r Hp Hd E1) as (rc & -> & R & I & y & Hy & S).
      exists (rc :: rcs). repeat split; [now constructor|cbn [map]; now rewrite I, H3|].
      constructor; [now exists y|assumption]. }
  destruct H as (rcs & -> & H2 & H3 & H4). fold (recs_text rcs).
  rewrite (starting_with_spec HDR HDR_ne HDR_nl attr_index attr_parse r_index size Hs index rcs H2).
  rewrite (take_drop_sorted HDR HDR_ne HDR_nl attr_index attr_parse r_index size Hs).
  - clear - H3 H4 Hbelow. revert H3. induction H4 as [|x rc l rcs (y & Hy & S) H4 IH]; intros E; [constructor|].
    cbn [map] in E. injection E as E1 E2. cbn [filter]. rewrite Hbelow, E1.
    destruct (is_prefix index (r_index x)); [|now apply IH].
    cbn [parsed]. rewrite Hy. constructor; [assumption|now apply IH].
  - intros r o Hr Ho. clear - H3 H4 Hr Ho. revert H3. induction H4 as [|x rc l rcs (y & Hy & [S _]) H4 IH]; intros E; [destruct Hr|].
    cbn [map] in E. injection E as E1 E2. destruct Hr as [->|Hr]; [|now apply IH].
    rewrite Hy in Ho. injection Ho as <-. now rewrite E1.
  - apply listing_sorted in HL. clear - H3 HL.
    revert l H3 HL. induction rcs as [|rc rcs IH]; intros l E HL; [constructor|].
    destruct l as [|x l]; [discriminate|]. cbn [map] in E. injection E as E1 E2.
    inversion HL as [|? ? HL' HF]; subst. constructor; [now apply (IH l)|].
    rewrite Forall_forall in *. intros r Hr. rewrite E1.
    assert (Hi : In (rec_index HDR attr_index r) (map r_index l)) by (rewrite <- E2; now apply in_map).
    apply in_map_iff in Hi as (z & <- & Hz). now apply HF.
Qed.

(** ** Non-vacuity *)
Definition ex_stat t := stat_dict (mk_stat t 12 420 1000 100 7 2049 2 1700000000 5 6 (Some (bs "joe")) None).
Definition ex_files : list rorp :=
  [mk_rorp [] (ex_stat TDir); mk_rorp [bs "a"] (ex_stat TDir);
   mk_rorp [bs "a"; [nl; bslash]] (ex_stat (TSym [nl])); mk_rorp [bs "a"; bs "x y"] (ex_stat TReg);
   mk_rorp [bs "a-b"] (ex_stat (TDev (bs "c") 4 64)); mk_rorp [bs "gone"] (set empty_dict KType VNone)].
Example ex_written : exists recs, map (attr_record true) ex_files = map Some recs
  /\ map r_index (attr_get (fun _ => 7%nat) None (write_file recs)) = map r_index ex_files
  /\ map r_index (attr_get (fun _ => 7%nat) (Some [bs "a"]) (write_file recs)) = [[bs "a"]; [bs "a"; [nl; bslash]]; [bs "a"; bs "x y"]].
Proof. eexists [_; _; _; _; _; _]. split; [vm_compute; reflexivity|]. split; vm_compute; reflexivity. Qed.
Example ex_writable : Forall writable ex_files.
Proof.
  assert (HW : forall i, i <> [bs "."] -> forallb (fun c => negb (beq_bytes c []) && negb (mem_byte (chr 47) c)) i = true -> good_path i).
  { intros i H1 H. split; [assumption|]. intros c Hc. rewrite forallb_forall in H. specialize (H c Hc).
    apply andb_prop in H as [H2 H3]. apply negb_true_iff in H2, H3. apply beq_bytes_false in H2. split; [assumption|].
    intros Hi. apply mem_byte_In in Hi. congruence. }
  assert (HD : forall t, (forall s, t = TSym s -> s <> []) -> (forall c a b, t = TDev c a b -> c = bs "c") -> described (ex_stat t)).
  { intros t H1 H2. constructor.
    - exists (type_name t). split; [reflexivity|]. destruct t; cbn; tauto.
    - split; eexists; reflexivity.
    - intros k [->| ->]; cbn; [right; repeat split; try discriminate; vm_compute; intuition discriminate|now left].
    - eexists; reflexivity.
    - intros k [->| ->]; exact I.
    - intros _. repeat split; try (eexists; reflexivity); exact I.
    - unfold typed. destruct t; try discriminate. intros _. eexists. split; [reflexivity|]. now apply (H1 target).
    - unfold typed. destruct t; try discriminate. intros _. do 3 eexists. split; [reflexivity|].
      rewrite (H2 _ _ _ eq_refl). repeat split; try discriminate; vm_compute; intuition discriminate.
    - unfold typed. destruct t; intros N1 N2; try (eexists; reflexivity); exfalso; [now apply N2|now apply N1]. }
  repeat (apply Forall_cons; [split; [apply HW; [discriminate|reflexivity]|left; apply HD; (congruence || intros; try congruence)]|]).
  apply Forall_cons; [split; [apply HW; [discriminate|reflexivity]|right; reflexivity]|constructor].
Qed.
Example ex_sorted : listing r_index ex_files.
Proof. apply listing_sorted. apply (sorted_dec _ (fun x y => idx_ltb (r_index x) (r_index y))); [intros; now apply idx_ltb_lt|reflexivity]. Qed.
Example ex_damaged : attr_parse (concat (map (fun s => s ++ [nl]) [bs "File " ++ bs "f"; bs "  Size 1x2"])) = None.
Proof. vm_compute. reflexivity. Qed.

Print Assumptions C11_round_trip.
Print Assumptions C11_everything_can_be_written.
Print Assumptions C11_stable.
Print Assumptions C11_damaged_record_costs_only_itself.
Print Assumptions C11_user_None_refuted.
Print Assumptions C13_subtree.

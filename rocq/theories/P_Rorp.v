(** * C40: unchanged files are recognised, changed files are noticed *)
From Coq Require Import List ZArith Bool Ascii Lia.
From Verif Require Import Base L_Base M_Iter L_Iter M_Rorp S_Meta.
Import List ListNotations.
Local Open Scope Z_scope.

(** A source file as seen by lstat. *)
Definition source (i : idx) (s : statb) : rorp := mk_rorp i (stat_dict s).
(** What the metadata says about the file of a former session: its description
    then (possibly completed by a digest or an alternate name) as stored. *)
Definition recorded (hl : bool) (i : idx) (s : statb) (y : rorp) : Prop :=
  exists d, (forall k v, stat_dict s k = Some v -> d k = Some v)
         /\ (forall k, stat_dict s k = None ->
               d k <> None -> k = KSha1 \/ k = KMirrorname \/ k = KIncname)
         /\ stored_as hl (mk_rorp i d) y.

Lemma val_eqb_refl v : val_eqb v v = true.
Proof. unfold val_eqb. destruct (val_eq_dec v v); congruence. Qed.
Lemma val_eqb_true a b : val_eqb a b = true -> a = b.
Proof. unfold val_eqb. destruct (val_eq_dec a b); congruence. Qed.
Lemma all_keys_in k : In k all_keys.
Proof. destruct k; cbn; tauto. Qed.
Lemma data_eq_key g a b k : data_eq g a b = true -> eq_ignored g a b k || eq_key a b k = true.
Proof. unfold data_eq. rewrite forallb_forall. intros H. apply H, all_keys_in. Qed.

Lemma stat_type s t : is_type t (stat_dict s) = beq_bytes (type_name (st_type s)) t.
Proof. reflexivity. Qed.
Lemma recorded_fields hl i s y : recorded hl i s y ->
  r_index y = i /\ forall k, k <> KSha1 -> k <> KMirrorname -> k <> KIncname ->
    r_data y k = stored hl (stat_dict s) k.
Proof.
  intros (d & H1 & H2 & H3 & H4). cbn [r_index r_data] in *. split; [assumption|].
  assert (He : forall k, k <> KSha1 -> k <> KMirrorname -> k <> KIncname -> d k = stat_dict s k).
  { intros k N1 N2 N3. destruct (stat_dict s k) as [v|] eqn:E; [now apply H1|].
    destruct (d k) eqn:Ed; [|reflexivity]. destruct (H2 k E) as [?|[?|?]]; congruence. }
  assert (HT : forall t, is_type t d = is_type t (stat_dict s)).
  { intros t. unfold is_type. now rewrite (He KType) by discriminate. }
  intros k N1 N2 N3. rewrite H4. unfold stored, linked_file, isreg, issym. rewrite !HT, (He KType), (He KNlink) by discriminate.
  destruct k; rewrite ?He by discriminate; try reflexivity; congruence.
Qed.

(** An unchanged file equals its record, whatever the settings.  A link count of 0 is
    only ever reported for deleted files. *)
Theorem C40_unchanged_recognised : forall g i s y,
  1 <= st_nlink s -> recorded (g_preserve_hardlinks g) i s y ->
  rorp_eq g (source i s) y = true.
Proof.
  intros g i s y Hn H. apply recorded_fields in H as [Hi H]. unfold rorp_eq, source. cbn [r_index r_data].
  rewrite Hi. assert (Hii : idx_eqb i i = true) by now apply idx_eqb_eq. rewrite Hii. cbn [andb].
  unfold data_eq. apply forallb_forall. intros k _.
  destruct (stat_dict s k) as [v|] eqn:Ev; [|unfold eq_key; rewrite Ev; apply orb_true_r].
  assert (N : k <> KSha1 /\ k <> KMirrorname /\ k <> KIncname) by (repeat split; intros ->; discriminate).
  destruct N as (N1 & N2 & N3). specialize (H k N1 N2 N3).
  apply orb_true_iff.
  destruct k; try discriminate Ev; try (left; reflexivity).
  - right. unfold eq_key. rewrite Ev, H. unfold stored. cbn [stat_dict] in *. injection Ev as <-. apply val_eqb_refl.
  - (* size *) destruct (isreg (stat_dict s)) eqn:R.
    + right. unfold eq_key. rewrite Ev, H. unfold stored. rewrite R. cbn [stat_dict] in *. injection Ev as <-. apply val_eqb_refl.
    + left. unfold eq_ignored. rewrite R. apply orb_true_r.
  - right. unfold eq_key. rewrite Ev, H. unfold stored. cbn [stat_dict] in *. injection Ev as <-. apply val_eqb_refl.
  - right. unfold eq_key. rewrite Ev, H. unfold stored. cbn [stat_dict] in *. injection Ev as <-. apply val_eqb_refl.
  - right. unfold eq_key. rewrite Ev, H. unfold stored. cbn [stat_dict] in *. injection Ev as <-. apply val_eqb_refl.
  - (* inode *) destruct (eq_ignored g (stat_dict s) (r_data y) KInode) eqn:EI; [now left|right].
    unfold eq_key. rewrite Ev, H. unfold eq_ignored in EI. cbn [global_ignored orb] in EI.
    apply orb_false_iff in EI as [EI E4]. apply orb_false_iff in EI as [EI E3]. apply orb_false_iff in EI as [E1 E2].
    apply negb_false_iff in E1, E3, E4. unfold stored, linked_file. rewrite E1, E4. cbn [andb].
    cbn [stat_dict] in *. injection Ev as <-.
    destruct (Z.ltb_spec 1 (st_nlink s)) as [L|L]; [apply val_eqb_refl|].
    assert (st_nlink s = 1) as E by lia. unfold getnumlinks in E2. cbn [stat_dict] in E2. now rewrite E in E2.
  - destruct (eq_ignored g (stat_dict s) (r_data y) KDevloc) eqn:EI; [now left|right].
    unfold eq_key. rewrite Ev, H. unfold eq_ignored in EI. cbn [global_ignored orb] in EI.
    apply orb_false_iff in EI as [EI E4]. apply orb_false_iff in EI as [EI E3]. apply orb_false_iff in EI as [E1 E2].
    apply negb_false_iff in E1, E3, E4. unfold stored, linked_file. rewrite E1, E4. cbn [andb].
    cbn [stat_dict] in *. injection Ev as <-.
    destruct (Z.ltb_spec 1 (st_nlink s)) as [L|L]; [apply val_eqb_refl|].
    assert (st_nlink s = 1) as E by lia. unfold getnumlinks in E2. cbn [stat_dict] in E2. now rewrite E in E2.
  - (* uname *) right. unfold eq_key. rewrite Ev, H. unfold stored. cbn [stat_dict] in *. injection Ev as <-.
    destruct (st_uname s) as [[|c u]|]; cbn [val_of_name]; try reflexivity.
    destruct (beq_bytes (c :: u) (bs "None")); [reflexivity|apply val_eqb_refl].
  - right. unfold eq_key. rewrite Ev, H. unfold stored. cbn [stat_dict] in *. injection Ev as <-.
    destruct (st_gname s) as [[|c u]|]; cbn [val_of_name]; try reflexivity.
    destruct (beq_bytes (c :: u) (bs "None")); [reflexivity|apply val_eqb_refl].
  - (* mtime *) right. unfold eq_key. rewrite Ev, H. unfold stored, issym. rewrite !stat_type.
    cbn [stat_dict] in *. destruct (st_type s); try discriminate; injection Ev as <-; apply val_eqb_refl.
  - (* linkname *) right. unfold eq_key. rewrite Ev, H. unfold stored, issym. rewrite !stat_type.
    cbn [stat_dict] in *. destruct (st_type s); try discriminate; injection Ev as <-; apply val_eqb_refl.
  - right. unfold eq_key. rewrite Ev, H. unfold stored, issym. rewrite !stat_type.
    cbn [stat_dict] in *. destruct (st_type s); try discriminate; injection Ev as <-; apply val_eqb_refl.
Qed.

(** A file which equals a record is the same in everything recorded: path, type
    with symlink target and device numbers, size, permissions, modification
    time, owner, inode of hard linked files.  Exceptions: symlinks have
    no owner; a recorded owner without name says nothing about the name; a
    FIFO or a socket is taken for an empty regular file (next theorem). *)
Definition same_recorded (g : settings) (s s' : statb) : Prop :=
  st_type s = st_type s'
  /\ st_perms s = st_perms s'
  /\ (st_type s = TReg -> st_size s = st_size s')
  /\ (match st_type s with TSym _ | TDev _ _ _ => True | _ => st_mtime s = st_mtime s' end)
  /\ (match st_type s with TSym _ => True
      | _ => st_uid s = st_uid s' /\ st_gid s = st_gid s'
             /\ (forall n, st_uname s' = Some n -> n <> [] -> n <> bs "None" -> st_uname s = Some n)
             /\ (forall n, st_gname s' = Some n -> n <> [] -> n <> bs "None" -> st_gname s = Some n)
      end)
  /\ (st_type s = TReg -> st_nlink s <> 1 -> g_compare_inode g = true -> g_preserve_hardlinks g = true ->
      st_ino s = st_ino s' /\ st_dev s = st_dev s' /\ 1 < st_nlink s').
(** the exception: a FIFO or socket in place of an empty regular file *)
Definition special_for_empty (s s' : statb) : Prop :=
  (st_type s = TFifo \/ st_type s = TSock) /\ st_type s' = TReg /\ st_size s' = 0.

Lemma key_same g a b k v : data_eq g a b = true -> eq_ignored g a b k = false -> a k = Some v ->
  k <> KUname -> k <> KGname -> b k = Some v.
Proof.
  intros H1 H2 H3 N1 N2. apply (data_eq_key _ _ _ k) in H1. rewrite H2 in H1. cbn [orb] in H1.
  unfold eq_key in H1. rewrite H3 in H1.
  destruct k; try congruence; destruct (b _) as [w|]; try discriminate; apply val_eqb_true in H1; congruence.
Qed.
Lemma type_ignored_no g s y : isspecial (stat_dict s) && empty_reg y = false -> eq_ignored g (stat_dict s) y KType = false.
Proof. intros H. unfold eq_ignored. cbn [global_ignored orb]. exact H. Qed.

Theorem C40_change_noticed : forall g i s i' s' y,
  recorded (g_preserve_hardlinks g) i' s' y -> rorp_eq g (source i s) y = true ->
  i = i' /\ (same_recorded g s s' \/ special_for_empty s s').
Proof.
  intros g i s i' s' y Hr HE. apply recorded_fields in Hr as [Hi Hy]. unfold rorp_eq, source in HE. cbn [r_index r_data] in HE.
  apply andb_prop in HE as [E1 HE]. rewrite Hi in E1. apply idx_eqb_eq in E1. split; [assumption|].
  set (a := stat_dict s) in *. set (b := r_data y) in *.
  assert (Hb : forall k, k <> KSha1 -> k <> KMirrorname -> k <> KIncname -> b k = stored (g_preserve_hardlinks g) (stat_dict s') k) by exact Hy.
  assert (HbT : forall t, is_type t b = beq_bytes (type_name (st_type s')) t).
  { intros t. unfold is_type. rewrite Hb by discriminate. reflexivity. }
  assert (KS : forall k v, eq_ignored g a b k = false -> a k = Some v -> k <> KUname -> k <> KGname -> b k = Some v).
  { intros k v A B C D. exact (key_same g a b k v HE A B C D). }
  assert (HM : match st_type s with TSym _ | TDev _ _ _ => True | _ => b KMtime = Some (VInt (st_mtime s)) end).
  { destruct (st_type s) eqn:T; auto; (apply KS; [reflexivity|unfold a; cbn [stat_dict]; now rewrite T|discriminate|discriminate]). }
  assert (HP : b KPerms = Some (VInt (st_perms s))) by (apply KS; (reflexivity || discriminate)).
  (* the type *)
  assert (HT : st_type s = st_type s' \/ special_for_empty s s').
  { destruct (isspecial a && empty_reg b) eqn:SP.
    - apply andb_prop in SP as [S1 S2]. unfold empty_reg, isreg in S2. rewrite HbT in S2. apply andb_prop in S2 as [S2 S3].
      assert (T' : st_type s' = TReg) by (destruct (st_type s'); try discriminate S2; reflexivity).
      assert (Z0 : st_size s' = 0).
      { rewrite Hb in S3 by discriminate. unfold stored, isreg in S3. rewrite stat_type, T' in S3. cbn in S3.
        destruct (st_size s'); congruence. }
      destruct (st_type s) eqn:T.
      + unfold isspecial, a in S1. rewrite !stat_type, T in S1. discriminate.
      + unfold isspecial, a in S1. rewrite !stat_type, T in S1. discriminate.
      + exfalso. assert (H : b KDevnums = Some (VDev c major minor)) by (apply KS; try discriminate; [reflexivity|unfold a; cbn [stat_dict]; now rewrite T]).
        rewrite Hb in H by discriminate. unfold stored in H. rewrite !stat_type, T' in H. discriminate.
      + right. repeat split; auto.
      + exfalso. assert (H : b KLinkname = Some (VStr target)) by (apply KS; try discriminate; [reflexivity|unfold a; cbn [stat_dict]; now rewrite T]).
        rewrite Hb in H by discriminate. unfold stored, issym in H. rewrite !stat_type, T' in H. discriminate.
      + right. repeat split; auto.
    - left. assert (H : b KType = Some (VStr (type_name (st_type s)))).
      { apply KS; [now apply type_ignored_no|reflexivity|discriminate|discriminate]. }
      rewrite Hb in H by discriminate. unfold stored in H. cbn [stat_dict] in H. injection H as H.
      destruct (st_type s) eqn:T; destruct (st_type s') eqn:T'; try discriminate H; try reflexivity.
      + assert (H2 : b KDevnums = Some (VDev c major minor)) by (apply KS; try discriminate; [reflexivity|unfold a; cbn [stat_dict]; now rewrite T]).
        rewrite Hb in H2 by discriminate. unfold stored in H2. rewrite !stat_type, T' in H2. cbn [type_name] in H2.
        cbn [stat_dict] in H2. rewrite T' in H2. cbn in H2. congruence.
      + assert (H2 : b KLinkname = Some (VStr target)) by (apply KS; try discriminate; [reflexivity|unfold a; cbn [stat_dict]; now rewrite T]).
        rewrite Hb in H2 by discriminate. unfold stored, issym in H2. rewrite !stat_type, T' in H2. cbn [type_name] in H2.
        cbn [stat_dict] in H2. rewrite T' in H2. cbn in H2. congruence. }
  destruct HT as [HT|HT]; [left|now right].
  unfold same_recorded. split; [exact HT|]. split.
  { rewrite Hb in HP by discriminate. unfold stored in HP. cbn [stat_dict] in HP. congruence. }
  split.
  { intros T. assert (H : b KSize = Some (VInt (st_size s))).
    { apply KS; try discriminate; [|reflexivity]. unfold eq_ignored, isreg, a. rewrite stat_type, T. reflexivity. }
    rewrite Hb in H by discriminate. unfold stored, isreg in H. rewrite stat_type, <- HT, T in H. cbn in H. congruence. }
  split.
  { rewrite Hb in HM by discriminate. unfold stored, issym in HM. rewrite !stat_type, <- HT in HM.
    destruct (st_type s) eqn:T; auto; cbn [stat_dict] in HM; rewrite <- HT in HM; cbn in HM; congruence. }
  split.
  { assert (Hno : match st_type s with TSym _ => True | _ => issym a = false end).
    { unfold issym, a. rewrite stat_type. destruct (st_type s); auto. }
    assert (HU : issym a = false -> st_uid s = st_uid s' /\ st_gid s = st_gid s'
             /\ (forall n, st_uname s' = Some n -> n <> [] -> n <> bs "None" -> st_uname s = Some n)
             /\ (forall n, st_gname s' = Some n -> n <> [] -> n <> bs "None" -> st_gname s = Some n)).
    { intros NS.
      assert (H1 : b KUid = Some (VInt (st_uid s))) by (apply KS; try discriminate; [exact NS|reflexivity]).
      assert (H2 : b KGid = Some (VInt (st_gid s))) by (apply KS; try discriminate; [exact NS|reflexivity]).
      rewrite Hb in H1, H2 by discriminate. unfold stored in H1, H2. cbn [stat_dict] in H1, H2.
      split; [congruence|]. split; [congruence|].
      pose proof (data_eq_key _ _ _ KUname HE) as H3. pose proof (data_eq_key _ _ _ KGname HE) as H4.
      unfold eq_ignored in H3, H4. cbn [global_ignored orb] in H3, H4. rewrite NS in H3, H4. cbn [orb] in H3, H4.
      unfold eq_key in H3, H4. rewrite Hb in H3, H4 by discriminate. unfold stored in H3, H4.
      unfold a in H3, H4. cbn [stat_dict] in H3, H4.
      split; intros n En N1 N2.
      - rewrite En in H3. cbn [val_of_name] in H3. destruct n as [|c n]; [congruence|].
        apply beq_bytes_false in N2. rewrite N2 in H3. apply val_eqb_true in H3. destruct (st_uname s); cbn in H3; congruence.
      - rewrite En in H4. cbn [val_of_name] in H4. destruct n as [|c n]; [congruence|].
        apply beq_bytes_false in N2. rewrite N2 in H4. apply val_eqb_true in H4. destruct (st_gname s); cbn in H4; congruence. }
    destruct (st_type s); auto. }
  { intros T N C P.
    assert (HN : eq_ignored g a b KInode = false /\ eq_ignored g a b KDevloc = false).
    { unfold eq_ignored. cbn [global_ignored orb]. unfold isreg, a. rewrite stat_type, T, C, P. cbn [type_name].
      unfold getnumlinks. cbn [stat_dict].
      assert (E : val_eqb (VInt (st_nlink s)) (VInt 1) = false).
      { unfold val_eqb. destruct (val_eq_dec _ _) as [E|E]; [|reflexivity]. injection E as E. congruence. }
      rewrite E. split; reflexivity. }
    destruct HN as [HN1 HN2].
    assert (H1 : b KInode = Some (VInt (st_ino s))) by (apply KS; try discriminate; [exact HN1|reflexivity]).
    assert (H2 : b KDevloc = Some (VInt (st_dev s))) by (apply KS; try discriminate; [exact HN2|reflexivity]).
    rewrite Hb in H1, H2 by discriminate. unfold stored, linked_file, isreg in H1, H2.
    rewrite P, stat_type, <- HT, T in H1, H2. cbn in H1, H2.
    destruct (1 <? st_nlink s') eqn:L; [|discriminate]. apply Z.ltb_lt in L.
    repeat split; try congruence; lia. }
Qed.

(** The exception is real: a FIFO which took the place of an empty file, with the
    same times, permissions and owner, isn't noticed. *)
Definition ex_reg : statb := mk_stat TReg 0 420 0 0 1 1 1 100 100 100 (Some (bs "root")) (Some (bs "root")).
Definition ex_fifo : statb := mk_stat TFifo 0 420 0 0 2 1 1 100 200 200 (Some (bs "root")) (Some (bs "root")).
Definition ex_g : settings := mk_set false false false false false true true true.
Theorem C40_fifo_for_empty_file_refuted :
  exists y, recorded (g_preserve_hardlinks ex_g) [bs "f"] ex_reg y /\ rorp_eq ex_g (source [bs "f"] ex_fifo) y = true.
Proof.
  exists (mk_rorp [bs "f"] (stored true (stat_dict ex_reg))). split; [|vm_compute; reflexivity].
  exists (stat_dict ex_reg). split; [auto|]. split; [intros; congruence|]. split; [reflexivity|]. reflexivity.
Qed.

(** The loose comparison used to regress accepts whatever the strict one accepts,
    apart from the ownership, which it compares with the mapped owner. *)
Theorem C40_loose_weaker : forall g owner a b,
  data_eq g a b = true -> g_change_ownership g = false -> equal_loose g owner a b = true.
Proof.
  intros g owner a b H C. unfold equal_loose. rewrite C, andb_false_r, andb_true_r.
  apply forallb_forall. intros k _. pose proof (data_eq_key g a b k H) as Hk. apply orb_true_iff in Hk. apply orb_true_iff.
  destruct (loose_ignored g a b k) eqn:L; [now left|right]. unfold loose_ignored, eq_ignored in *.
  apply orb_false_iff in L as [L1 L2]. rewrite L1 in Hk. cbn [orb] in Hk. unfold eq_key, loose_key in *.
  destruct (a k) as [v|]; [|reflexivity].
  destruct k; try discriminate L2; destruct Hk as [Hk|Hk]; try discriminate Hk; try exact Hk; congruence.
Qed.

(** The attributes beyond lstat are compared exactly when they are kept in the repository. *)
Definition kept (g : settings) (k : key) : option bool :=
  match k with
  | KEa => Some (g_eas_write g)
  | KAcl => Some (g_acls_write g)
  | KWinAcl => Some (g_win_acls_write g)
  | KCarbonfile => Some (g_carbonfile_write g)
  | _ => None
  end.
Theorem C40_kept_attribute_noticed : forall g i a b k v,
  kept g k = Some true -> a k = Some v -> b k <> Some v ->
  rorp_eq g (mk_rorp i a) (mk_rorp i b) = false.
Proof.
  intros g i a b k v Hk Ha Hb. destruct (rorp_eq g (mk_rorp i a) (mk_rorp i b)) eqn:E; [|reflexivity]. exfalso.
  unfold rorp_eq in E. apply andb_true_iff in E as [_ E]. cbn [r_data] in E. pose proof (data_eq_key _ _ _ k E) as K.
  assert (I : eq_ignored g a b k = false) by (destruct k; try discriminate Hk; injection Hk as Hk; unfold eq_ignored, global_ignored; rewrite Hk; reflexivity).
  rewrite I in K. cbn [orb] in K. unfold eq_key in K. rewrite Ha in K.
  destruct k; try discriminate Hk; destruct (b _) as [w|]; try discriminate K; apply val_eqb_true in K; congruence.
Qed.
Theorem C40_other_attribute_ignored : forall g i a b k v w,
  kept g k = Some false ->
  rorp_eq g (mk_rorp i (set a k v)) (mk_rorp i (set b k w)) = rorp_eq g (mk_rorp i a) (mk_rorp i b).
Proof.
  intros g i a b k v w Hk. unfold rorp_eq. cbn [r_index r_data]. f_equal. unfold data_eq.
  assert (T : forall d x t, is_type t (set d k x) = is_type t d) by (intros; destruct k; try discriminate Hk; reflexivity).
  assert (TE : forall d x, empty_reg (set d k x) = empty_reg d) by (intros; destruct k; try discriminate Hk; reflexivity).
  assert (TN : forall d x, getnumlinks (set d k x) = getnumlinks d) by (intros; destruct k; try discriminate Hk; reflexivity).
  assert (F : forall l, (forall k', In k' l -> In k' all_keys) ->
     forallb (fun k0 => eq_ignored g (set a k v) (set b k w) k0 || eq_key (set a k v) (set b k w) k0) l
     = forallb (fun k0 => eq_ignored g a b k0 || eq_key a b k0) l).
  { induction l as [|k' l IH]; intros _; [reflexivity|]. cbn [forallb]. rewrite IH by (intros; apply all_keys_in). f_equal.
    assert (EI : eq_ignored g (set a k v) (set b k w) k' = eq_ignored g a b k').
    { unfold eq_ignored, isreg, issym, isspecial. rewrite !T, TE, TN. reflexivity. }
    rewrite EI. destruct (eq_ignored g a b k') eqn:Ei; [reflexivity|]. cbn [orb].
    assert (N : key_eqb k k' = false).
    { destruct k; try discriminate Hk; injection Hk as Hk; destruct k'; try reflexivity; unfold eq_ignored, global_ignored in Ei; rewrite Hk in Ei; discriminate. }
    unfold eq_key, set. rewrite N. reflexivity. }
  apply F. auto.
Qed.
(** Not so for resource forks, which are compared even if they aren't kept. *)
Theorem C40_resource_fork_compared_refuted : forall g i a b v,
  a KResourcefork = Some v -> b KResourcefork = None -> rorp_eq g (mk_rorp i a) (mk_rorp i b) = false.
Proof.
  intros g i a b v Ha Hb. destruct (rorp_eq g (mk_rorp i a) (mk_rorp i b)) eqn:E; [|reflexivity]. exfalso.
  unfold rorp_eq in E. apply andb_true_iff in E as [_ E]. cbn [r_data] in E. pose proof (data_eq_key _ _ _ KResourcefork E) as K.
  unfold eq_key in K. rewrite Ha, Hb in K. discriminate.
Qed.

(** ** Non-vacuity *)
Example ex_changed_noticed :
  exists y, recorded true [bs "f"] ex_reg y
  /\ rorp_eq ex_g (source [bs "f"] ex_reg) y = true
  /\ rorp_eq ex_g (source [bs "f"] (mk_stat TReg 0 384 0 0 1 1 1 100 100 100 (Some (bs "root")) (Some (bs "root")))) y = false
  /\ rorp_eq ex_g (source [bs "f"] (mk_stat TReg 0 420 0 0 1 1 1 101 100 100 (Some (bs "root")) (Some (bs "root")))) y = false.
Proof.
  exists (mk_rorp [bs "f"] (stored true (stat_dict ex_reg))). split; [|repeat split; vm_compute; reflexivity].
  exists (stat_dict ex_reg). split; [auto|]. split; [intros; congruence|]. split; reflexivity.
Qed.

Print Assumptions C40_unchanged_recognised.
Print Assumptions C40_change_noticed.
Print Assumptions C40_fifo_for_empty_file_refuted.
Print Assumptions C40_loose_weaker.
Print Assumptions C40_kept_attribute_noticed.
Print Assumptions C40_other_attribute_ignored.
Print Assumptions C40_resource_fork_compared_refuted.
Example ex_ea_noticed :
  rorp_eq (mk_set true false false false false true true true) (mk_rorp [] (set (stat_dict ex_reg) KEa (VStr (bs "x")))) (mk_rorp [] (stat_dict ex_reg)) = false
  /\ rorp_eq ex_g (mk_rorp [] (set (stat_dict ex_reg) KEa (VStr (bs "x")))) (mk_rorp [] (stat_dict ex_reg)) = true.
Proof. split; vm_compute; reflexivity. Qed.

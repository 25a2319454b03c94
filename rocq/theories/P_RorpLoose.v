(** * C40: the comparison used to regress, of a file of the mirror with its record *)
From Coq Require Import List ZArith Bool Ascii Lia.
From Verif Require Import Base L_Base M_Iter L_Iter M_Rorp S_Meta P_Rorp.
Import List ListNotations.
Local Open Scope Z_scope.

(** The file [s] of the mirror looks like [r], for which a record was written: the same type (with target or
    device numbers), permissions, size of a regular file and modification time, or an empty file standing
    for a FIFO or a socket; and it belongs to whom it should, unless owners can't be changed or it is a symlink. *)
Definition has_times (t : ftype) : bool := match t with TSym _ | TDev _ _ _ => false | _ => true end.
Definition looks_like (r s : statb) : Prop :=
  (st_type r = st_type s /\ (st_type r = TReg -> st_size r = st_size s) \/ special_for_empty r s)
  /\ st_perms r = st_perms s /\ (has_times (st_type r) = true -> st_mtime r = st_mtime s).
Definition right_owner (g : settings) (owner : option (val * val)) (r s : statb) : Prop :=
  g_change_ownership g = true -> (forall t, st_type r <> TSym t) -> owner = Some (VInt (st_uid s), VInt (st_gid s)).

Theorem C40_loose_exact : forall g owner hl i r y s,
  recorded hl i r y ->
  (equal_loose g owner (r_data y) (stat_dict s) = true <-> looks_like r s /\ right_owner g (owner (r_data y)) r s).
Proof.
  intros g owner hl i r y s R. destruct (recorded_fields _ _ _ _ R) as [_ H]. set (a := r_data y) in *.
  assert (HT : forall t, is_type t a = beq_bytes (type_name (st_type r)) t).
  { intros t. unfold is_type. rewrite H by discriminate. reflexivity. }
  assert (Sh : a KSha1 = None \/ exists v, a KSha1 = Some v) by (destruct (a KSha1); eauto).
  unfold equal_loose. rewrite andb_true_iff.
  assert (Ow : (if exists_ a && negb (issym a) && g_change_ownership g
     then match owner a, stat_dict s KUid, stat_dict s KGid with Some (u, v), Some u', Some v' => val_eqb u u' && val_eqb v v' | _, _, _ => false end
     else true) = true <-> right_owner g (owner a) r s).
  { assert (E1 : exists_ a = true) by (unfold exists_; rewrite H by discriminate; cbn; destruct (st_type r); reflexivity).
    rewrite E1. cbn [andb]. unfold issym. rewrite HT. unfold right_owner.
    assert (E2 : negb (beq_bytes (type_name (st_type r)) (bs "sym")) = true <-> (forall t, st_type r <> TSym t)).
    { destruct (st_type r); cbn; split; intros X; try discriminate; try reflexivity. exfalso. eapply X; reflexivity. }
    destruct (negb (beq_bytes (type_name (st_type r)) (bs "sym"))); cbn [andb].
    - destruct (g_change_ownership g).
      + cbn [stat_dict]. destruct (owner a) as [[u v]|].
        * rewrite andb_true_iff. split.
          -- intros [A B] _ _. apply val_eqb_true in A. apply val_eqb_true in B. congruence.
          -- intros X. assert (X' := X eq_refl (proj1 E2 eq_refl)). injection X' as -> ->. split; apply val_eqb_refl.
        * split; [discriminate|]. intros X. specialize (X eq_refl (proj1 E2 eq_refl)). discriminate.
      + split; [discriminate|reflexivity].
    - split; [|reflexivity]. intros _ _ N. apply E2 in N. discriminate. }
  rewrite Ow. clear Ow.
  assert (Fk : forall k, global_ignored g k = false ->
     (match k with KUid | KGid | KUname | KGname | KCtime | KInode | KMirrorname | KIncname | KDevloc | KNlink | KSha1 => False | _ => True end) ->
     a k = stored hl (stat_dict r) k) by (intros k _ N; apply H; destruct k; congruence || contradiction).
  split.
  - intros [F O]. split; [|exact O]. rewrite forallb_forall in F.
    assert (K : forall k v, loose_ignored g a (stat_dict s) k = false -> a k = Some v -> stat_dict s k = Some v).
    { intros k v L E. specialize (F k (all_keys_in k)). rewrite L in F. cbn [orb] in F. unfold loose_key in F. rewrite E in F.
      destruct (stat_dict s k) as [w|]; [|discriminate]. apply val_eqb_true in F. congruence. }
    assert (Pe : st_perms r = st_perms s).
    { assert (X : stat_dict s KPerms = Some (VInt (st_perms r))) by (apply K; [reflexivity|rewrite H by discriminate; reflexivity]). cbn in X. congruence. }
    assert (Mt : has_times (st_type r) = true -> stat_dict s KMtime = Some (VInt (st_mtime r))).
    { intros T. apply K; [reflexivity|]. rewrite H by discriminate. unfold stored, issym. rewrite !stat_type. cbn [stat_dict].
      destruct (st_type r); try discriminate; reflexivity. }
    assert (Mt' : has_times (st_type r) = true -> st_mtime r = st_mtime s).
    { intros T. specialize (Mt T). cbn [stat_dict] in Mt. destruct (st_type s); try discriminate; congruence. }
    split; [|split; [exact Pe|exact Mt']].
    destruct (isspecial a && empty_reg (stat_dict s)) eqn:SP.
    + apply andb_prop in SP as [S1 S2]. unfold empty_reg, isreg in S2. rewrite stat_type in S2. apply andb_prop in S2 as [S2 S3].
      assert (T' : st_type s = TReg) by (destruct (st_type s); try discriminate S2; reflexivity).
      assert (Z0 : st_size s = 0) by (cbn in S3; destruct (st_size s); congruence).
      unfold isspecial in S1. rewrite !HT in S1. destruct (st_type r) eqn:T; try discriminate S1.
      * exfalso. assert (X : stat_dict s KDevnums = Some (VDev c major minor)).
        { apply K; [reflexivity|]. rewrite H by discriminate. unfold stored. rewrite !stat_type, T. cbn [stat_dict type_name]. rewrite T. reflexivity. }
        cbn [stat_dict] in X. rewrite T' in X. discriminate.
      * right. repeat split; auto.
      * exfalso. assert (X : stat_dict s KLinkname = Some (VStr target)).
        { apply K; [reflexivity|]. rewrite H by discriminate. unfold stored, issym. rewrite !stat_type, T. cbn [stat_dict type_name]. rewrite T. reflexivity. }
        cbn [stat_dict] in X. rewrite T' in X. discriminate.
      * right. repeat split; auto.
    + left. assert (X : stat_dict s KType = Some (VStr (type_name (st_type r)))).
      { apply K; [unfold loose_ignored; cbn [global_ignored orb]; exact SP|]. rewrite H by discriminate. reflexivity. }
      cbn [stat_dict] in X. injection X as X.
      assert (T : st_type r = st_type s).
      { destruct (st_type r) eqn:T; destruct (st_type s) eqn:T'; try discriminate X; try reflexivity.
        - assert (Y : stat_dict s KDevnums = Some (VDev c major minor)).
          { apply K; [reflexivity|]. rewrite H by discriminate. unfold stored. rewrite !stat_type, T. cbn [stat_dict type_name]. rewrite T. reflexivity. }
          cbn [stat_dict] in Y. rewrite T' in Y. congruence.
        - assert (Y : stat_dict s KLinkname = Some (VStr target)).
          { apply K; [reflexivity|]. rewrite H by discriminate. unfold stored, issym. rewrite !stat_type, T. cbn [stat_dict type_name]. rewrite T. reflexivity. }
          cbn [stat_dict] in Y. rewrite T' in Y. congruence. }
      split; [exact T|]. intros Tr.
      assert (Y : stat_dict s KSize = Some (VInt (st_size r))).
      { apply K; [unfold loose_ignored, isreg; rewrite HT, Tr; reflexivity|]. rewrite H by discriminate. unfold stored, isreg. rewrite !stat_type, Tr. reflexivity. }
      cbn in Y. congruence.
  - intros [(T & Pe & Mt) O]. split; [|exact O]. apply forallb_forall. intros k _. apply orb_true_iff.
    destruct (loose_ignored g a (stat_dict s) k) eqn:L; [now left|right].
    assert (G0 : global_ignored g k = false) by (unfold loose_ignored in L; now apply orb_false_iff in L).
    unfold loose_ignored in L. rewrite G0 in L. cbn [orb] in L.
    unfold loose_key. rewrite (Fk k G0) by (destruct k; try exact I; discriminate L). unfold stored. cbn [stat_dict]. unfold issym, isreg. rewrite !stat_type.
    unfold isreg, isspecial, empty_reg, isreg in L. rewrite ?HT, ?stat_type in L. cbn [stat_dict] in L.
    destruct T as [[T Tz]|[T1 [T2 T3]]].
    + destruct k; try discriminate L; try reflexivity; cbn [stat_dict]; try apply val_eqb_refl; rewrite <- ?T;
      destruct (st_type r) eqn:Tr; try discriminate L; try reflexivity; cbn in *; rewrite ?Pe, ?Mt, ?Tz by reflexivity; apply val_eqb_refl.
    + rewrite T2, T3 in L. destruct k; try discriminate L; try reflexivity; cbn [stat_dict]; try apply val_eqb_refl; rewrite ?T2;
      destruct T1 as [T1|T1]; rewrite T1 in *; try discriminate L; try reflexivity; cbn in *; rewrite ?Pe, ?Mt by reflexivity; apply val_eqb_refl.
Qed.

(** a changed size, or another owner, is noticed *)
Example loose_ex :
  let g := mk_set true true false false false true true true in
  let s n u := mk_stat TReg n 420 u 100 7 8 1 1000 1000 1000 (Some (bs "u")) None in
  let y := mk_rorp [bs "f"] (stored true (stat_dict (s 5 1))) in
  let owner d := match d KUid, d KGid with Some u, Some v => Some (u, v) | _, _ => None end in
  recorded true [bs "f"] (s 5 1) y /\
  equal_loose g owner (r_data y) (stat_dict (s 5 1)) = true /\
  equal_loose g owner (r_data y) (stat_dict (s 6 1)) = false /\
  equal_loose g owner (r_data y) (stat_dict (s 5 2)) = false.
Proof.
  cbn zeta. split; [|repeat split; reflexivity]. exists (stat_dict (mk_stat TReg 5 420 1 100 7 8 1 1000 1000 1000 (Some (bs "u")) None)).
  split; [auto|]. split; [intros; congruence|]. split; reflexivity.
Qed.

Print Assumptions C40_loose_exact.

(** * C28: copying a file preserves its content *)
From Coq Require Import List ZArith Bool Ascii Lia.
From Verif Require Import Base L_Base M_CopyFile.
Import List ListNotations.

Lemma zeros_length n : length (zeros n) = n.
Proof. apply repeat_length. Qed.
Lemma zeros_app a b : zeros a ++ zeros b = zeros (a + b).
Proof. unfold zeros. now rewrite repeat_app. Qed.
Lemma is_zeros_true b : is_zeros b = true -> b = zeros (length b).
Proof. intros H. now apply beq_bytes_true. Qed.

(** The state between two rounds: the file holds a first part of what was read, the
    rest of it is zeros not yet written. *)
Definition pending (sparse : bool) (done : bytes) (f : ofile) : Prop :=
  exists n, done = o_data f ++ zeros n /\ o_pos f = Z.of_nat (length done) /\ (n = 0 <-> sparse = false).

Lemma pending_pos sparse done f : pending sparse done f -> o_pos f = Z.of_nat (length done).
Proof. intros [n [_ [H _]]]. exact H. Qed.

Lemma write_pending s done f b : pending s done f -> pending false (done ++ b) (o_write f b).
Proof.
  intros [n [E [P _]]]. exists 0. cbn [zeros repeat]. unfold o_write. cbn [o_data o_pos].
  rewrite P, Nat2Z.id. unfold write_at. split; [|split; [|tauto]].
  - rewrite E, app_length, zeros_length, firstn_all2 by lia. rewrite skipn_all2 by lia.
    replace (length (o_data f) + n - length (o_data f)) with n by lia.
    now rewrite !app_nil_r, <- app_assoc.
  - rewrite app_length, Nat2Z.inj_add. reflexivity.
Qed.

Lemma copy_loop_ok c l : forall s done f,
  (forall b, In b l -> b <> []) -> pending s done f ->
  exists s' f', copy_loop c l s f = Some (s', f') /\ pending s' (done ++ concat l) f'.
Proof.
  induction l as [|b r IH]; intros s done f Ne P.
  - exists s, f. cbn [concat]. rewrite app_nil_r. auto.
  - cbn [copy_loop concat]. assert (Nb : b <> []) by (apply Ne; now left).
    assert (Nr : forall x, In x r -> x <> []) by (intros x Hx; apply Ne; now right).
    destruct (negb c && is_zeros b) eqn:Z.
    + apply andb_true_iff in Z as [_ Z]. apply is_zeros_true in Z.
      unfold o_seek. pose proof (pending_pos _ _ _ P) as Pp.
      destruct (Z.ltb_spec (o_pos f + Z.of_nat (length b)) 0); [lia|].
      destruct (IH true (done ++ b) (mk_ofile (o_data f) (o_pos f + Z.of_nat (length b))) Nr) as [s' [f' [E Q]]].
      * destruct P as [n [E [P' _]]]. exists (n + length b). cbn [o_data o_pos]. split; [|split].
        -- rewrite Z at 1. rewrite E, <- app_assoc, zeros_app. reflexivity.
        -- rewrite app_length, P'. lia.
        -- destruct b; [congruence|]. cbn [length]. split; [lia|discriminate].
      * exists s', f'. rewrite app_assoc. auto.
    + destruct (IH false (done ++ b) (o_write f b) Nr (write_pending _ _ _ _ P)) as [s' [f' [E Q]]].
      exists s', f'. rewrite app_assoc. auto.
Qed.

(** For every way the input is cut into pieces: the new file holds exactly the pieces
    one after the other, sparse or not, compressed or not. *)
Theorem C28_copy : forall compressed chunks,
  (forall b, In b chunks -> b <> []) ->
  exists f, copyfileobj compressed chunks new_ofile = Some f /\ o_data f = concat chunks.
Proof.
  intros c chunks Ne.
  destruct (copy_loop_ok c chunks false [] new_ofile Ne) as [s [f [E [n [D [P S]]]]]].
  { exists 0. cbn. repeat split; auto. }
  unfold copyfileobj. rewrite E. cbn [app] in D, P. destruct s.
  - assert (N : n <> 0) by (intros X; apply S in X; discriminate).
    assert (L : length (concat chunks) = length (o_data f) + n) by (rewrite D, app_length, zeros_length; lia).
    unfold o_seek. rewrite P. destruct (Z.ltb_spec (Z.of_nat (length (concat chunks)) + -1) 0); [lia|].
    eexists. split; [reflexivity|]. unfold o_write. cbn [o_data o_pos]. unfold write_at.
    replace (Z.to_nat (Z.of_nat (length (concat chunks)) + -1)) with (length (concat chunks) - 1) by lia.
    rewrite L, firstn_all2, skipn_all2 by (cbn [length]; lia). rewrite app_nil_r, D. f_equal.
    replace (length (o_data f) + n - 1 - length (o_data f)) with (n - 1) by lia.
    change [zero] with (zeros 1). rewrite zeros_app. f_equal. lia.
  - assert (n = 0) by now apply S. subst n. cbn [zeros repeat] in D. rewrite app_nil_r in D.
    exists f. auto.
Qed.
Print Assumptions C28_copy.

Lemma read_all_ok chunks : (forall b, In b chunks -> b <> []) -> forall seen,
  read_all (S (length chunks)) (mk_hashed chunks seen) = (chunks, mk_hashed [] (seen ++ concat chunks)).
Proof.
  induction chunks as [|b r IH]; intros Ne seen; [reflexivity|].
  cbn [length]. change (S (S (length r))) with (S (length (b :: r))).
  cbn [read_all]. unfold hash_read. cbn [h_rest h_seen].
  assert (Nb : b <> []) by (apply Ne; now left). destruct b as [|x b]; [congruence|].
  cbn [length]. fold (length r). rewrite IH by (intros y Hy; apply Ne; now right).
  cbn [concat]. now rewrite app_assoc.
Qed.

(** The digest reported for the copy is the digest of the bytes written. *)
Theorem C28_copy_and_hash : forall sha1 compressed chunks,
  (forall b, In b chunks -> b <> []) ->
  write_from_fileobj sha1 compressed chunks = Some (concat chunks, sha1 (concat chunks)).
Proof.
  intros sha1 c chunks Ne. unfold write_from_fileobj, hash_open. rewrite read_all_ok by exact Ne.
  destruct (C28_copy c chunks Ne) as [f [E D]]. rewrite E, D. reflexivity.
Qed.
Print Assumptions C28_copy_and_hash.

(** A checksum does not depend on the sizes of the reads. *)
Theorem C28_checksum : forall sha1 c1 c2,
  (forall b, In b c1 -> b <> []) -> (forall b, In b c2 -> b <> []) ->
  concat c1 = concat c2 -> compute_sha1_fp sha1 c1 = compute_sha1_fp sha1 c2.
Proof.
  intros sha1 c1 c2 N1 N2 E. unfold compute_sha1_fp, hash_open, hash_close.
  rewrite !read_all_ok by assumption. cbn [snd h_seen app]. now rewrite E.
Qed.
Print Assumptions C28_checksum.

(** Copying onto a file which is not empty would keep its old bytes under the holes. *)
Theorem C28_old_content_refuted : exists f,
  copyfileobj false [zeros 1; [ "a"%char ]] (mk_ofile (bs "xy") 0) = Some f /\ o_data f = bs "xa".
Proof. eexists. split; vm_compute; reflexivity. Qed.

(** Comparing two regular files finds out whether they are equal. *)
Lemma blocks_nil f k s : blocks f k s = [] -> f = O \/ s = [].
Proof. destruct f, s; cbn; auto. discriminate. Qed.
Lemma cmp_blocks k : k <> 0 -> forall n s1 s2 f1 f2, length s1 <= f1 -> length s2 <= f2 -> f1 <= n -> f2 <= n ->
  cmp_file_obj (S n) (blocks f1 k s1) (blocks f2 k s2) = Some (beq_bytes s1 s2).
Proof.
  intros K n. induction n as [|n IH]; intros s1 s2 f1 f2 L1 L2 B1 B2.
  - destruct s1, s2; cbn in L1, L2; try lia. assert (f1 = 0) by lia. assert (f2 = 0) by lia. subst. reflexivity.
  - destruct s1 as [|a1 s1], s2 as [|a2 s2].
    + destruct f1, f2; reflexivity.
    + destruct f2; [cbn in L2; lia|]. cbn [blocks]. destruct k; [congruence|].
      assert (X : blocks f1 (S k) [] = []) by (destruct f1; reflexivity). rewrite X. reflexivity.
    + destruct f1; [cbn in L1; lia|]. destruct k; [congruence|].
      assert (X : blocks f2 (S k) [] = []) by (destruct f2; reflexivity). rewrite X. reflexivity.
    + destruct f1, f2; try (cbn in L1, L2; lia).
      change (blocks (S f1) k (a1 :: s1)) with (firstn k (a1 :: s1) :: blocks f1 k (skipn k (a1 :: s1))).
      change (blocks (S f2) k (a2 :: s2)) with (firstn k (a2 :: s2) :: blocks f2 k (skipn k (a2 :: s2))).
      set (t1 := a1 :: s1) in *. set (t2 := a2 :: s2) in *.
      assert (Cmp : cmp_file_obj (S (S n)) (firstn k t1 :: blocks f1 k (skipn k t1)) (firstn k t2 :: blocks f2 k (skipn k t2)) =
                    (if negb (beq_bytes (firstn k t1) (firstn k t2)) then Some false
                     else match firstn k t1 with [] => Some true | _ => cmp_file_obj (S n) (blocks f1 k (skipn k t1)) (blocks f2 k (skipn k t2)) end))
        by reflexivity.
      rewrite Cmp. clear Cmp.
      destruct (beq_bytes (firstn k t1) (firstn k t2)) eqn:E.
      * cbn [negb]. apply beq_bytes_true in E.
        assert (F : exists x y, firstn k t1 = x :: y) by (destruct k; [congruence|]; subst t1; cbn; eauto).
        destruct F as [x [y F]]. rewrite F.
        rewrite IH; [| | |lia|lia].
        -- destruct (beq_bytes (skipn k t1) (skipn k t2)) eqn:E2.
           ++ apply beq_bytes_true in E2. symmetry. f_equal. apply beq_bytes_true.
              rewrite <- (firstn_skipn k t1), <- (firstn_skipn k t2). congruence.
           ++ symmetry. f_equal. apply beq_bytes_false. intros X. apply beq_bytes_false in E2. congruence.
        -- rewrite skipn_length. destruct k; [congruence|]. subst t1. cbn [length] in *. lia.
        -- rewrite skipn_length. destruct k; [congruence|]. subst t2. cbn [length] in *. lia.
      * cbn [negb]. symmetry. f_equal. apply beq_bytes_false. intros X. rewrite X in E.
        apply beq_bytes_false in E. congruence.
Qed.
Theorem C28_compare : forall k s1 s2, k <> 0 ->
  exists n, forall m, n <= m ->
    cmp_file_obj m (blocks (length s1) k s1) (blocks (length s2) k s2) = Some (beq_bytes s1 s2).
Proof.
  intros k s1 s2 K. exists (S (length s1 + length s2)). intros m Hm.
  destruct m as [|m]; [lia|]. apply cmp_blocks; lia.
Qed.
Print Assumptions C28_compare.

(** If a read may return less than asked for, equal files may look different. *)
Theorem C28_short_reads_refuted : exists c1 c2,
  concat c1 = concat c2 /\ cmp_file_obj 5 c1 c2 = Some false.
Proof. exists [bs "ab"], [bs "a"; bs "b"]. split; reflexivity. Qed.

Example copy_ex : copyfileobj false [bs "ab"; zeros 3; bs "c"; zeros 2] new_ofile =
  Some (mk_ofile (bs "ab" ++ zeros 3 ++ bs "c" ++ zeros 2) 8).
Proof. vm_compute. reflexivity. Qed.

(** * C27: the block size chosen for signatures *)
From Coq Require Import ZArith Lia.
From Verif Require Import M_Rdiff.
Local Open Scope Z_scope.

Lemma blocksize_shape n : 10240 <= n ->
  exists k, 7 <= k /\ 2 ^ (2 * k) <= 2 * n /\ n < 2 * 2 ^ (2 * k) /\
    find_blocksize n = n / (2 ^ k * 16) * 16.
Proof.
  intros H. unfold find_blocksize, bit_length.
  destruct (Z.ltb_spec n 10240); [lia|]. destruct (Z.eqb_spec n 0); [lia|].
  pose proof (Z.log2_spec n ltac:(lia)) as [L1 L2].
  assert (G : 13 <= Z.log2 n) by (change 13 with (Z.log2 8192); apply Z.log2_le_mono; lia).
  set (g := Z.log2 n) in *. set (k := (g + 1) / 2).
  pose proof (Z.div_mod (g + 1) 2 ltac:(lia)) as D. pose proof (Z.mod_pos_bound (g + 1) 2 ltac:(lia)) as M.
  fold k in D. exists k. assert (K : 7 <= k) by (apply Z.div_le_lower_bound; lia).
  split; [exact K|]. split; [|split].
  - apply Z.le_trans with (2 * 2 ^ g); [|lia]. rewrite <- Z.pow_succ_r by lia. apply Z.pow_le_mono_r; lia.
  - eapply Z.lt_le_trans; [exact L2|]. rewrite <- Z.pow_succ_r by lia. apply Z.pow_le_mono_r; lia.
  - rewrite Z.shiftl_mul_pow2, Z.shiftr_div_pow2 by lia. rewrite Z.pow_add_r by lia. reflexivity.
Qed.

(** For every file length: a multiple of 16, at least 64, and for files of at least
    10240 bytes within a factor of the square root of two of the square root of the
    length, rounded down to a multiple of 16. *)
Theorem C27_blocksize : forall n, 0 <= n ->
  (16 | find_blocksize n) /\ 64 <= find_blocksize n /\
  (n < 10240 -> find_blocksize n = 64) /\
  (10240 <= n -> find_blocksize n * find_blocksize n < 2 * n /\
                 n < 2 * (find_blocksize n + 16) * (find_blocksize n + 16)).
Proof.
  intros n Hn. destruct (Z.ltb_spec n 10240) as [H|H].
  - assert (E : find_blocksize n = 64) by (unfold find_blocksize; destruct (Z.ltb_spec n 10240); lia).
    rewrite E. split; [now exists 4|]. lia.
  - destruct (blocksize_shape n H) as [k [K [L1 [L2 E]]]].
    assert (P7 : 128 <= 2 ^ k) by (change 128 with (2 ^ 7); apply Z.pow_le_mono_r; lia).
    assert (Sq : 2 ^ (2 * k) = 2 ^ k * 2 ^ k) by (replace (2 * k) with (k + k) by lia; apply Z.pow_add_r; lia).
    rewrite Sq in L1, L2. set (p := 2 ^ k) in *. rewrite E. set (q := n / (p * 16)).
    pose proof (Z.div_mod n (p * 16) ltac:(nia)) as D. pose proof (Z.mod_pos_bound n (p * 16) ltac:(nia)) as M.
    fold q in D. assert (Q1 : q * 16 * p <= n) by nia. assert (Q2 : n < (q * 16 + 16) * p) by nia.
    split; [now exists q|]. split; [|split; [lia|intros _; split]].
    + assert (64 < q * 16 + 16); [nia|]. assert (X : q * 16 <> 64 -> 64 < q * 16 \/ q * 16 <= 48) by lia.
      destruct (Z.le_gt_cases (q * 16) 48); [|lia]. exfalso.
      assert (Q3 : n < 64 * p) by nia. nia.
    + assert (q * 16 < 2 * p) by nia. nia.
    + nia.
Qed.
Print Assumptions C27_blocksize.

Example blocksize_ex : find_blocksize 0 = 64 /\ find_blocksize 10240 = 80 /\ find_blocksize 1000000 = 976.
Proof. repeat split; vm_compute; reflexivity. Qed.
(** The block size is not monotone: it falls by half at odd powers of two. *)
Theorem C27_not_monotone : exists n m, n < m /\ find_blocksize m < find_blocksize n.
Proof. exists 32767, 32768. vm_compute. split; reflexivity. Qed.

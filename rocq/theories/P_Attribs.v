(** * C70: the attributes written to a file are those asked for *)
From Coq Require Import List ZArith NArith Bool Ascii Lia.
From Verif Require Import Base L_Base M_EaAcl M_Attribs S_Attribs.
Import List ListNotations.
Local Open Scope N_scope.

(** ** Running the steps *)
Fixpoint run (fs : list (inode -> option inode)) (n : inode) : option inode :=
  match fs with [] => Some n | f :: r => match f n with Some n' => run r n' | None => None end end.
Lemma fold_none fs : fold_left (fun h f => then_ f h) fs None = None.
Proof. induction fs; [reflexivity|assumption]. Qed.
Lemma fold_run fs : forall n r,
  match fold_left (fun h f => then_ f h) fs (Some (n :: r)) with Some (n' :: _) => Some n' | _ => None end = run fs n.
Proof.
  induction fs as [|f fs IH]; intros n r; [reflexivity|]. cbn [fold_left run then_].
  destruct (f n) as [n'|]; [apply IH|now rewrite fold_none].
Qed.
Lemma run_app a b n : run (a ++ b) n = match run a n with Some n' => run b n' | None => None end.
Proof. revert n; induction a as [|f a IH]; intros n; [reflexivity|]. cbn [app run]. destruct (f n); [apply IH|reflexivity]. Qed.

(** ** Extended attributes *)
Lemma value_set x n v m : value m (ea_set x n v) = if beq_bytes n m then Some v else value m x.
Proof.
  induction x as [|[a w] x IH]; [reflexivity|]. cbn [ea_set]. destruct (beq_bytes a n) eqn:E.
  - apply beq_bytes_true in E. subst a. cbn [value]. now destruct (beq_bytes n m).
  - cbn [value]. rewrite IH. destruct (beq_bytes a m) eqn:E2; [|reflexivity]. destruct (beq_bytes n m) eqn:E3; [|reflexivity].
    apply beq_bytes_true in E2, E3. subst. now rewrite beq_bytes_refl in E.
Qed.
Lemma value_drop x k m : value m (drop_attr k x) = if beq_bytes k m then None else value m x.
Proof.
  induction x as [|[a w] x IH]; cbn [drop_attr filter fst value]; [now destruct (beq_bytes k m)|].
  fold (drop_attr k x). destruct (beq_bytes a k) eqn:E; cbn [negb].
  - rewrite IH. apply beq_bytes_true in E. subst a. now destruct (beq_bytes k m).
  - cbn [value]. rewrite IH. destruct (beq_bytes a m) eqn:E2; [|reflexivity]. destruct (beq_bytes k m) eqn:E3; [|reflexivity].
    apply beq_bytes_true in E2, E3. subst. now rewrite beq_bytes_refl in E.
Qed.
Lemma value_in m x v : value m x = Some v -> In m (map fst x).
Proof.
  induction x as [|[a w] x IH]; [discriminate|]. cbn. destruct (beq_bytes a m) eqn:E; [|auto].
  intros _. left. now apply beq_bytes_true.
Qed.

Section P.
Variable root : bool.
Variable fits : bytes -> bytes -> bool.

(** nothing but the attributes and ACLs is changed, and what may be changed stays the same *)
Definition like (n n' : inode) : Prop :=
  i_kind n' = i_kind n /\ i_uid n' = i_uid n /\ i_gid n' = i_gid n /\ i_mode n' = i_mode n /\
  i_mtime n' = i_mtime n /\ i_has_ea n' = i_has_ea n.
Lemma like_refl n : like n n. Proof. now repeat split. Qed.
Lemma like_trans a b c : like a b -> like b c -> like a c.
Proof. intros (?&?&?&?&?&?) (?&?&?&?&?&?). repeat split; congruence. Qed.
Lemma may_like a b x : like a b -> may_change root b x = may_change root a x.
Proof. intros (E & _ & _ & M & _). unfold may_change, writable. now rewrite E, M. Qed.

Lemma may_possible n x : (root = true \/ writable n = true) -> may_change root n x = possible root (i_kind n) x.
Proof.
  intros H. unfold may_change, possible. destruct (starts_with (bs "user.") x).
  - assert (E : root || writable n = true) by (destruct H as [-> | ->]; [reflexivity|apply orb_true_r]).
    rewrite E. now destruct (i_kind n).
  - destruct (starts_with _ x), (starts_with _ x), root; reflexivity.
Qed.

Lemma remove_like x n n' : sys_removexattr root x n = Some n' -> like n n'.
Proof.
  unfold sys_removexattr. destruct (beq_bytes x POSIX_ACL); [intros [= <-]; now repeat split|].
  destruct (beq_bytes x POSIX_DEFAULT); [intros [= <-]; now repeat split|].
  destruct (may_change root n x); [intros [= <-]; now repeat split|discriminate].
Qed.
Lemma system_not_possible n : may_change root n POSIX_ACL = false /\ may_change root n POSIX_DEFAULT = false.
Proof. now split. Qed.
Lemma remove_value x n m :
  let n' := match sys_removexattr root x n with Some n' => n' | None => n end in
  value m (i_xattr n') = if beq_bytes x m && may_change root n m then None else value m (i_xattr n).
Proof.
  cbv zeta. unfold sys_removexattr.
  destruct (beq_bytes x POSIX_ACL) eqn:E1.
  { apply beq_bytes_true in E1. subst x. cbn [i_xattr with_acl]. destruct (beq_bytes POSIX_ACL m) eqn:E; [|reflexivity].
    apply beq_bytes_true in E. subst m. now rewrite (proj1 (system_not_possible n)). }
  destruct (beq_bytes x POSIX_DEFAULT) eqn:E2.
  { apply beq_bytes_true in E2. subst x. cbn [i_xattr with_default]. destruct (beq_bytes POSIX_DEFAULT m) eqn:E; [|reflexivity].
    apply beq_bytes_true in E. subst m. now rewrite (proj2 (system_not_possible n)). }
  destruct (may_change root n x) eqn:M.
  - cbn [i_xattr with_xattr]. rewrite value_drop. destruct (beq_bytes x m) eqn:E; [|reflexivity].
    apply beq_bytes_true in E. subst m. now rewrite M.
  - destruct (beq_bytes x m) eqn:E; [|reflexivity]. apply beq_bytes_true in E. subst m. now rewrite M.
Qed.
Lemma remove_all_spec l : forall n,
  let n' := remove_all root l n in
  like n n' /\ forall m, value m (i_xattr n') =
    if existsb (fun y => beq_bytes y m) l && may_change root n m then None else value m (i_xattr n).
Proof.
  induction l as [|x l IH]; intros n; cbv zeta; [split; [apply like_refl|reflexivity]|].
  cbn [remove_all]. set (n1 := match sys_removexattr root x n with Some n' => n' | None => n end).
  assert (L1 : like n n1).
  { unfold n1. destruct (sys_removexattr root x n) eqn:E; [eapply remove_like; exact E|apply like_refl]. }
  destruct (IH n1) as [L2 V]. split; [eapply like_trans; eassumption|].
  intros m. rewrite V. rewrite (may_like n n1 m L1). pose proof (remove_value x n m) as R. cbv zeta in R.
  fold n1 in R. rewrite R. cbn [existsb].
  destruct (may_change root n m); rewrite ?andb_false_r; [|reflexivity]. rewrite !andb_true_r.
  destruct (beq_bytes x m), (existsb (fun y => beq_bytes y m) l); reflexivity.
Qed.
Lemma clear_spec n n1 : clear_rp root n = Some n1 -> i_has_ea n = true /\ like n n1 /\
  forall m, value m (i_xattr n1) = if may_change root n m then None else value m (i_xattr n).
Proof.
  unfold clear_rp. destruct (i_has_ea n); [|discriminate]. intros [= <-]. split; [reflexivity|].
  destruct (remove_all_spec (sys_listxattr n) n) as [L V]. split; [exact L|]. intros m. rewrite V.
  destruct (may_change root n m); rewrite ?andb_false_r; [|reflexivity]. rewrite andb_true_r.
  destruct (existsb (fun y => beq_bytes y m) (sys_listxattr n)) eqn:E; [reflexivity|].
  destruct (value m (i_xattr n)) eqn:Vm; [|reflexivity]. exfalso. apply value_in in Vm.
  rewrite <- not_true_iff_false in E. apply E. apply existsb_exists. exists m. split; [|apply beq_bytes_refl].
  unfold sys_listxattr. apply in_or_app. now left.
Qed.
Lemma set_all_spec d : NoDup (map fst d) -> forall n,
  let n' := set_all root fits d n in
  like n n' /\ i_acl n' = i_acl n /\ i_default n' = i_default n /\ forall m, value m (i_xattr n') =
    match value m d with Some v => if may_change root n m && fits m v then Some v else value m (i_xattr n) | None => value m (i_xattr n) end.
Proof.
  induction d as [|[x v] d IH]; intros ND n; cbv zeta; [now repeat split|].
  cbn [map fst] in ND. inversion ND as [|? ? Hx ND']; subst. cbn [set_all].
  set (n1 := match sys_setxattr fits root x v n with Some n' => n' | None => n end).
  assert (L1 : like n n1 /\ i_acl n1 = i_acl n /\ i_default n1 = i_default n /\
     forall m, value m (i_xattr n1) = if beq_bytes x m && (may_change root n x && fits x v) then Some v else value m (i_xattr n)).
  { unfold n1, sys_setxattr. destruct (may_change root n x && fits x v).
    - split; [now repeat split|]. split; [reflexivity|]. split; [reflexivity|]. intros m. cbn [i_xattr with_xattr].
      rewrite value_set. now destruct (beq_bytes x m).
    - split; [apply like_refl|]. split; [reflexivity|]. split; [reflexivity|]. intros m. now rewrite andb_false_r. }
  destruct L1 as (L1 & A1 & D1 & V1). destruct (IH ND' n1) as (L2 & A2 & D2 & V2).
  split; [eapply like_trans; eassumption|]. split; [congruence|]. split; [congruence|].
  intros m. rewrite V2. cbn [value]. rewrite (may_like n n1 m L1), V1.
  destruct (beq_bytes x m) eqn:E; [|reflexivity]. apply beq_bytes_true in E. subst m. cbn [andb].
  destruct (value x d) eqn:Vx; [exfalso; apply Hx; eapply value_in; exact Vx|]. reflexivity.
Qed.
(** what is left after writing *)
Definition written (k : kind) (d old : list (bytes * bytes)) (m : bytes) : option bytes :=
  if possible root k m
  then match value m d with Some v => if fits m v then Some v else None | None => None end
  else value m old.
Lemma write_ea_spec d n n' : NoDup (map fst d) -> root = true \/ writable n = true ->
  write_ea root fits d n = Some n' -> like n n' /\ forall m, value m (i_xattr n') = written (i_kind n) d (i_xattr n) m.
Proof.
  intros ND W. unfold write_ea. destruct (clear_rp root n) as [n1|] eqn:C; [|discriminate]. intros [= <-].
  apply clear_spec in C. destruct C as (_ & L1 & V1). destruct (set_all_spec d ND n1) as (L2 & _ & _ & V2).
  split; [eapply like_trans; eassumption|]. intros m. rewrite V2, (may_like n n1 m L1), V1. unfold written.
  rewrite (may_possible n m W). destruct (possible root (i_kind n) m); cbn [andb].
  - destruct (value m d) as [v|]; [|reflexivity]. now destruct (fits m v).
  - now destruct (value m d).
Qed.
Lemma write_ea_ok d n : i_has_ea n = true -> exists n', write_ea root fits d n = Some n'.
Proof. intros H. unfold write_ea, clear_rp. rewrite H. eauto. Qed.
End P.

(** ** ACLs *)
Section A.
Variable cfg : config.
Variable acl_u acl_g : option Z -> option bytes -> option Z.
Lemma permset_id p : p < 8 -> permset p = p.
Proof.
  intros H. unfold permset. destruct (4 <=? p) eqn:E.
  - apply N.leb_le in E. assert (p = 4 \/ p = 5 \/ p = 6 \/ p = 7) as [->|[->|[->| ->]]] by lia; reflexivity.
  - apply N.leb_gt in E. rewrite N.mod_small by lia. reflexivity.
Qed.
Lemma list_to_acl_spec l : Forall plain_entry l ->
  (c_never_drop cfg = false \/ forall e, In e l -> granted acl_u acl_g e <> None) ->
  list_to_acl cfg acl_u acl_g true l = Some (stands_for acl_u acl_g l).
Proof.
  induction l as [|e l IH]; intros F ND; [reflexivity|]. inversion F as [|? ? (Hp & HE) F']; subst.
  assert (ND' : c_never_drop cfg = false \/ forall e, In e l -> granted acl_u acl_g e <> None).
  { destruct ND as [ND|ND]; [now left|right]. intros x Hx. apply ND. now right. }
  specialize (IH F' ND'). cbn [list_to_acl]. rewrite IH, (permset_id _ Hp).
  change (stands_for acl_u acl_g (e :: l)) with (known (granted acl_u acl_g e :: map (granted acl_u acl_g) l)).
  assert (NE : granted acl_u acl_g e = None -> c_never_drop cfg = false).
  { intros G. destruct ND as [ND|ND]; [exact ND|]. exfalso. apply (ND e); [now left|exact G]. }
  destruct e as [tag pair perms]. cbn [e_tag e_pair e_perms] in *. unfold granted in NE |- * at 1.
  cbn [e_tag e_pair e_perms] in *.
  destruct HE as [[HT HN]|[HT HN]].
  - subst pair. cbn in HT. destruct HT as [HT|[HT|[HT|[HT|[]]]]]; subst tag; reflexivity.
  - destruct pair as [[id name]|]; [|congruence].
    cbn in HT. destruct HT as [HT|[HT|[]]]; subst tag.
    + change (Ascii.eqb "u" (chr 117)) with true. change (Ascii.eqb "u" "u") with true in *. cbn [orb]. cbv iota in *.
      destruct (acl_u id name) as [i|] eqn:Ei; [reflexivity|]. rewrite (NE eq_refl). reflexivity.
    + change (Ascii.eqb "g" (chr 117)) with false. change (Ascii.eqb "g" (chr 103)) with true. change (Ascii.eqb "g" "u") with false in *.
      cbn [orb]. cbv iota in *.
      destruct (acl_g id name) as [i|] eqn:Ei; [reflexivity|]. rewrite (NE eq_refl). reflexivity.
Qed.
Lemma set_classes_id m : m < 4096 -> set_classes m ((m / 64) mod 8) ((m / 8) mod 8) (m mod 8) = m.
Proof.
  intros _. unfold set_classes.
  pose proof (N.div_mod m 8). pose proof (N.div_mod (m / 8) 8). pose proof (N.div_mod (m / 64) 8).
  assert (m / 8 / 8 = m / 64) by now rewrite N.div_div.
  assert (m / 64 / 8 = m / 512) by now rewrite N.div_div. lia.
Qed.
End A.

Lemma list_to_acl_some cfg acl_u acl_g l k : Forall plain_entry l ->
  list_to_acl cfg acl_u acl_g true l = Some k -> k = stands_for acl_u acl_g l.
Proof.
  revert k. induction l as [|e l IH]; intros k F H; [injection H as <-; reflexivity|].
  inversion F as [|? ? (Hp & HE) F']; subst. specialize (fun k => IH k F').
  cbn [list_to_acl] in H. rewrite (permset_id _ Hp) in H.
  change (stands_for acl_u acl_g (e :: l)) with (known (granted acl_u acl_g e :: map (granted acl_u acl_g) l)).
  destruct e as [tag pair perms]. cbn [e_tag e_pair e_perms] in *. unfold granted at 1. cbn [e_tag e_pair e_perms].
  assert (O : forall t, option_map (cons (t, perms)) (list_to_acl cfg acl_u acl_g true l) = Some k ->
    k = (t, perms) :: stands_for acl_u acl_g l).
  { intros t Ht. destruct (list_to_acl cfg acl_u acl_g true l) as [k'|]; [|discriminate]. injection Ht as <-. now rewrite (IH k' eq_refl). }
  destruct HE as [[HT HN]|[HT HN]].
  - subst pair. cbn in HT. destruct HT as [HT|[HT|[HT|[HT|[]]]]]; subst tag; exact (O _ H).
  - destruct pair as [[id name]|]; [|congruence].
    cbn in HT. destruct HT as [HT|[HT|[]]]; subst tag.
    + change (Ascii.eqb "u" (chr 117)) with true in H. change (Ascii.eqb "u" "u") with true. cbn [orb] in H. cbv iota in H |- *.
      destruct (acl_u id name) as [i|]; [exact (O _ H)|]. destruct (c_never_drop cfg); [discriminate|]. exact (IH k H).
    + change (Ascii.eqb "g" (chr 117)) with false in H. change (Ascii.eqb "g" (chr 103)) with true in H.
      change (Ascii.eqb "g" "u") with false. cbn [orb] in H. cbv iota in H |- *.
      destruct (acl_g id name) as [i|]; [exact (O _ H)|]. destruct (c_never_drop cfg); [discriminate|]. exact (IH k H).
Qed.

Section Steps.
Variable root : bool.
Variable fits : bytes -> bytes -> bool.
Variable timely : Z -> bool.
Variable cfg : config.
Variable own_u own_g : Z -> Z.
Variable acl_u acl_g : option Z -> option bytes -> option Z.
Notation copy := (copy_attribs root fits timely cfg own_u own_g acl_u acl_g).

Definition ids (n : inode) (u g : Z) (n' : inode) : Prop :=
  (u <> -1 -> i_uid n' = u)%Z /\ (g <> -1 -> i_gid n' = g)%Z.
(** the first part: owner and extended attributes *)
Definition part1 (src : attrs) : list (inode -> option inode) :=
  (if c_own cfg then [sys_chown root (own_u (t_uid src)) (own_g (t_gid src))] else [])
  ++ (if c_ea cfg then
        (if is_ksym (t_kind src) then [] else [fun n => Some (chmod cfg (N.lor (t_perms src) 438) n)])
        ++ [write_ea root fits (t_ea src)]
      else []).
Lemma chown_spec u g n n' : sys_chown root u g n = Some n' ->
  i_kind n' = i_kind n /\ ids n u g n' /\ i_has_ea n' = i_has_ea n /\
  forall m, root = true \/ m <> CAPABILITY -> possible root (i_kind n) m = false -> value m (i_xattr n') = value m (i_xattr n).
Proof.
  unfold sys_chown. destruct (_ && _); [discriminate|]. intros [= <-]. unfold ids.
  destruct (Z.eqb_spec u (-1)), (Z.eqb_spec g (-1)); subst; destruct (is_kdir (i_kind n)) eqn:K;
  (split; [reflexivity|]; split; [split; intros; try congruence; reflexivity|]; split; [reflexivity|]; intros m Hm Hp; try reflexivity);
  cbn [i_xattr with_owner with_mode with_xattr]; rewrite value_drop;
  (destruct (beq_bytes CAPABILITY m) eqn:E; [|reflexivity]);
  apply beq_bytes_true in E; subst m; destruct Hm as [-> | Hm]; try congruence; vm_compute in Hp; discriminate.
Qed.
Lemma land_4095 p : p < 4096 -> N.land p 4095 = p.
Proof. intros H. change 4095 with (N.ones 12). rewrite N.land_ones. now apply N.mod_small. Qed.
Lemma writable_666 p n : c_mask cfg = 4095 -> writable (chmod cfg (N.lor p 438) n) = true.
Proof. intros M. unfold writable, chmod, sys_chmod. cbn [i_mode with_acl with_mode]. rewrite M, N.land_spec, N.lor_spec.
  change (N.testbit 438 7) with true. now rewrite orb_true_r. Qed.
Lemma part1_spec src n n' : t_kind src = i_kind n -> t_kind src <> KSym -> c_mask cfg = 4095 -> NoDup (map fst (t_ea src)) ->
  run (part1 src) n = Some n' ->
  i_kind n' = i_kind n /\ i_has_ea n' = i_has_ea n /\
  (c_own cfg = true -> ids n (own_u (t_uid src)) (own_g (t_gid src)) n') /\
  (c_ea cfg = true -> i_has_ea n = true /\ forall m, root = true \/ m <> CAPABILITY ->
      value m (i_xattr n') = written root fits (i_kind n) (t_ea src) (i_xattr n) m).
Proof.
  intros K NS M ND. unfold part1. rewrite run_app.
  assert (S1 : forall n1, run (if c_own cfg then [sys_chown root (own_u (t_uid src)) (own_g (t_gid src))] else []) n = Some n1 ->
     i_kind n1 = i_kind n /\ i_has_ea n1 = i_has_ea n /\ (c_own cfg = true -> ids n (own_u (t_uid src)) (own_g (t_gid src)) n1) /\
     forall m, root = true \/ m <> CAPABILITY -> possible root (i_kind n) m = false -> value m (i_xattr n1) = value m (i_xattr n)).
  { intros n1. destruct (c_own cfg); cbn [run].
    - destruct (sys_chown root _ _ n) as [x|] eqn:E; [|discriminate]. intros [= <-].
      destruct (chown_spec _ _ _ _ E) as (A & B & C & D). repeat split; auto; apply B.
    - intros [= <-]. repeat split; auto; discriminate. }
  destruct (run (if c_own cfg then _ else _) n) as [n1|]; [|discriminate].
  destruct (S1 n1 eq_refl) as (K1 & E1 & I1 & V1). clear S1.
  destruct (c_ea cfg) eqn:CE; cbn [run].
  - destruct (is_ksym (t_kind src)) eqn:KS; [destruct (t_kind src); try discriminate; congruence|]. cbn [app run].
    destruct (write_ea root fits (t_ea src) (chmod cfg (N.lor (t_perms src) 438) n1)) as [n2|] eqn:W; [|discriminate].
    intros [= <-]. pose proof W as W'.
    assert (HE : i_has_ea n1 = true).
    { unfold write_ea, clear_rp in W'. cbn [i_has_ea chmod sys_chmod with_acl with_mode] in W'. destruct (i_has_ea n1); [reflexivity|discriminate]. }
    apply write_ea_spec in W; [|assumption|right; now apply writable_666]. destruct W as ((A & B & C & D & E & F) & V).
    cbn [i_kind i_uid i_gid i_has_ea chmod sys_chmod with_acl with_mode i_xattr] in *.
    split; [congruence|]. split; [congruence|]. split; [intros Ho; destruct (I1 Ho); unfold ids; rewrite B, C; split; assumption|].
    intros _. split; [congruence|]. intros m Hm. rewrite V, K1. unfold written.
    destruct (possible root (i_kind n) m) eqn:Po; [reflexivity|]. now apply V1.
  - intros [= <-]. repeat split; auto; try discriminate; now apply I1.
Qed.

(** the second part: permissions, ACL, time *)
Definition part2 (src : attrs) : list (inode -> option inode) :=
  [fun n => Some (chmod cfg (t_perms src) n)]
  ++ (if c_acl cfg then [set_rp_acl cfg acl_u acl_g true (t_acl src) (t_default src)] else [])
  ++ (match t_kind src with KDev => [] | _ => [fun n => Some (setmtime timely (t_mtime src) n)] end).
Lemma set_rp_acl_spec src n n' :
  Forall plain_entry (t_acl src) -> Forall plain_entry (t_default src) -> t_perms src < 4096 -> i_mode n = t_perms src ->
  (t_acl src = [] \/ agrees (stands_for acl_u acl_g (t_acl src)) (t_perms src)) ->
  set_rp_acl cfg acl_u acl_g true (t_acl src) (t_default src) n = Some n' ->
  i_kind n' = i_kind n /\ i_uid n' = i_uid n /\ i_gid n' = i_gid n /\ i_xattr n' = i_xattr n /\ i_mode n' = t_perms src /\
  i_acl n' = (if Nat.leb (length (stands_for acl_u acl_g (t_acl src))) 3 then None else Some (stands_for acl_u acl_g (t_acl src))) /\
  (i_kind n = KDir -> i_default n' = stands_for acl_u acl_g (t_default src)).
Proof.
  intros FA FD HP HM AG. unfold set_rp_acl.
  destruct (list_to_acl cfg acl_u acl_g true (t_acl src)) as [kl|] eqn:EL; [|discriminate].
  apply list_to_acl_some in EL; [|assumption]. set (k := stands_for acl_u acl_g (t_acl src)) in *. subst kl.
  assert (SA : exists n1, sys_setacl k n = Some n1 /\ i_kind n1 = i_kind n /\ i_uid n1 = i_uid n /\ i_gid n1 = i_gid n /\
     i_xattr n1 = i_xattr n /\ i_mode n1 = t_perms src /\ i_acl n1 = (if Nat.leb (length k) 3 then None else Some k)).
  { destruct AG as [E|AG].
    - unfold k. rewrite E. eexists. split; [reflexivity|]. now repeat split.
    - destruct AG as (V & PU & PG & PO). destruct k as [|e k'] eqn:Ek; [discriminate V|]. unfold sys_setacl. rewrite V.
      eexists. split; [reflexivity|]. cbn [i_kind i_uid i_gid i_xattr i_mode i_acl with_acl with_mode].
      repeat split.
      + rewrite HM, PU, PG, PO. now apply set_classes_id.
      + unfold minimal. destruct (Nat.eqb_spec (length (e :: k')) 3) as [L|L].
        * rewrite L. reflexivity.
        * destruct (Nat.leb_spec (length (e :: k')) 3) as [L'|L']; [exfalso|reflexivity].
          clear -V L L'. unfold valid_acl in V. repeat rewrite andb_true_iff in V.
          destruct V as (((((V1 & V2) & V3) & _) & _) & _). apply Nat.eqb_eq in V1, V2, V3.
          destruct e as [te pe]. destruct k' as [|[t2 p2] [|[t3 p3] [|? ?]]]; cbn [length] in *; try lia;
          unfold count in *; cbn [filter fst] in *; repeat (match goal with x : ktag |- _ => destruct x; cbn in * end); discriminate. }
  destruct SA as (n1 & E1 & K1 & U1 & G1 & X1 & M1 & A1). rewrite E1, K1.
  destruct (is_kdir (i_kind n)) eqn:KD.
  - destruct (list_to_acl cfg acl_u acl_g true (t_default src)) as [kd|] eqn:ED; [|discriminate].
    apply list_to_acl_some in ED; [|assumption]. subst kd. set (d := stands_for acl_u acl_g (t_default src)).
    unfold sys_setdefault. intros H.
    assert (n' = with_default d n1).
    { destruct d; [now injection H|]. destruct (valid_acl _); [now injection H|discriminate]. }
    subst n'. cbn [i_kind i_uid i_gid i_xattr i_mode i_acl i_default with_default]. repeat split; assumption.
  - intros [= <-]. repeat split; try assumption. intros E. rewrite E in KD. discriminate.
Qed.
Lemma part2_spec src n n' :
  Forall plain_entry (t_acl src) -> Forall plain_entry (t_default src) -> t_perms src < 4096 -> c_mask cfg = 4095 ->
  (t_acl src = [] \/ agrees (stands_for acl_u acl_g (t_acl src)) (t_perms src)) ->
  run (part2 src) n = Some n' ->
  i_kind n' = i_kind n /\ i_uid n' = i_uid n /\ i_gid n' = i_gid n /\ i_xattr n' = i_xattr n /\ i_mode n' = t_perms src /\
  (c_acl cfg = true -> i_acl n' = (if Nat.leb (length (stands_for acl_u acl_g (t_acl src))) 3 then None else Some (stands_for acl_u acl_g (t_acl src))) /\
     (i_kind n = KDir -> i_default n' = stands_for acl_u acl_g (t_default src))) /\
  (t_kind src <> KDev -> timely (t_mtime src) = true -> i_mtime n' = t_mtime src).
Proof.
  intros FA FD HP HM AG. unfold part2. cbn [app run]. set (n1 := chmod cfg (t_perms src) n).
  assert (M1 : i_mode n1 = t_perms src).
  { unfold n1, chmod, sys_chmod. cbn [i_mode with_acl with_mode]. rewrite HM. now apply land_4095. }
  assert (S1 : i_kind n1 = i_kind n /\ i_uid n1 = i_uid n /\ i_gid n1 = i_gid n /\ i_xattr n1 = i_xattr n) by now repeat split.
  clearbody n1. destruct S1 as (K1 & U1 & G1 & X1). rewrite run_app.
  assert (S2 : forall n2, run (if c_acl cfg then [set_rp_acl cfg acl_u acl_g true (t_acl src) (t_default src)] else []) n1 = Some n2 ->
     i_kind n2 = i_kind n /\ i_uid n2 = i_uid n /\ i_gid n2 = i_gid n /\ i_xattr n2 = i_xattr n /\ i_mode n2 = t_perms src /\
     (c_acl cfg = true -> i_acl n2 = (if Nat.leb (length (stands_for acl_u acl_g (t_acl src))) 3 then None else Some (stands_for acl_u acl_g (t_acl src))) /\
        (i_kind n = KDir -> i_default n2 = stands_for acl_u acl_g (t_default src)))).
  { intros n2. destruct (c_acl cfg); cbn [run].
    - destruct (set_rp_acl cfg acl_u acl_g true _ _ n1) as [x|] eqn:E; [|discriminate]. intros [= <-].
      apply set_rp_acl_spec in E; try assumption. destruct E as (A & B & C & D & F & G & H).
      rewrite K1 in H. repeat split; try congruence; assumption.
    - intros [= <-]. repeat split; try congruence; discriminate. }
  destruct (run (if c_acl cfg then _ else _) n1) as [n2|]; [|discriminate].
  destruct (S2 n2 eq_refl) as (A & B & C & D & E & F). clear S2. intros H.
  assert (R : n' = n2 \/ n' = setmtime timely (t_mtime src) n2) by (destruct (t_kind src); injection H as <-; auto).
  assert (R2 : t_kind src <> KDev -> n' = setmtime timely (t_mtime src) n2) by (destruct (t_kind src); intros; try congruence; now injection H).
  split; [|split; [|split; [|split; [|split; [|split]]]]].
  1-5: destruct R as [-> | ->]; [assumption|unfold setmtime; destruct (timely _); assumption].
  - intros HC. destruct (F HC) as [F1 F2]. destruct R as [-> | ->]; [auto|].
    unfold setmtime. destruct (timely _); cbn [i_acl i_default with_mtime]; auto.
  - intros NK T. rewrite (R2 NK). unfold setmtime. now rewrite T.
Qed.
Lemma copy_parts src n : t_kind src <> KSym -> copy src n = match run (part1 src) n with Some n' => run (part2 src) n' | None => None end.
Proof.
  intros NS. unfold copy_attribs, history. rewrite fold_run. rewrite <- run_app. f_equal.
  unfold steps_of, part1, part2. assert (E : is_ksym (t_kind src) = false) by (revert NS; destruct (t_kind src); intros; try reflexivity; congruence).
  rewrite E. now rewrite <- app_assoc.
Qed.
End Steps.

(** ** Theorems *)
(** Whatever the file was before, and whichever of the steps have side effects on others
    (chown clears set-user-id bits and capabilities, chmod changes ACLs, ACLs change the
    permissions): afterwards permissions, owner, time, ACLs and extended attributes are those
    asked for, and there are no others, as far as the process may change them. *)
Theorem C70_attributes_copied :
  forall root fits timely cfg own_u own_g acl_u acl_g src t t',
  t_kind src = i_kind t -> t_kind src <> KSym -> t_perms src < 4096 -> c_mask cfg = 4095 ->
  NoDup (map fst (t_ea src)) -> Forall plain_entry (t_acl src) -> Forall plain_entry (t_default src) ->
  (t_acl src = [] \/ agrees (stands_for acl_u acl_g (t_acl src)) (t_perms src)) ->
  copy_attribs root fits timely cfg own_u own_g acl_u acl_g src t = Some t' ->
  i_mode t' = t_perms src /\
  (c_own cfg = true -> (own_u (t_uid src) <> -1 -> i_uid t' = own_u (t_uid src))%Z /\
                       (own_g (t_gid src) <> -1 -> i_gid t' = own_g (t_gid src))%Z) /\
  (t_kind src <> KDev -> timely (t_mtime src) = true -> i_mtime t' = t_mtime src) /\
  (c_acl cfg = true ->
     i_acl t' = (if Nat.leb (length (stands_for acl_u acl_g (t_acl src))) 3 then None
                 else Some (stands_for acl_u acl_g (t_acl src))) /\
     (t_kind src = KDir -> i_default t' = stands_for acl_u acl_g (t_default src))) /\
  (c_ea cfg = true -> forall name, root = true \/ name <> bs "security.capability" ->
     value name (i_xattr t') =
     if possible root (i_kind t) name
     then match value name (t_ea src) with Some v => if fits name v then Some v else None | None => None end
     else value name (i_xattr t)).
Proof.
  intros root fits timely cfg own_u own_g acl_u acl_g src t t' K NS HP HM ND FA FD AG H.
  rewrite copy_parts in H by assumption. destruct (run (part1 root fits cfg own_u own_g src) t) as [n1|] eqn:E1; [|discriminate].
  apply part1_spec in E1; try assumption. destruct E1 as (K1 & _ & I1 & V1).
  apply part2_spec in H; try assumption. destruct H as (K2 & U2 & G2 & X2 & M2 & A2 & T2).
  split; [exact M2|]. split; [intros HO; destruct (I1 HO); rewrite U2, G2; split; assumption|]. split; [exact T2|].
  split; [intros HC; destruct (A2 HC) as [A B]; split; [exact A|intros KD; apply B; congruence]|].
  intros HE m Hm. rewrite X2. destruct (V1 HE) as [_ V]. exact (V m Hm).
Qed.
Print Assumptions C70_attributes_copied.

(** Copying succeeds if the process may do what is asked for and the names in ACLs are known
    (or may be dropped). *)
Theorem C70_copying_succeeds :
  forall root fits timely cfg own_u own_g acl_u acl_g src t,
  t_kind src = i_kind t -> t_kind src <> KSym -> c_mask cfg = 4095 -> t_perms src < 4096 ->
  (c_own cfg = true -> root = true) -> (c_ea cfg = true -> i_has_ea t = true) ->
  Forall plain_entry (t_acl src) -> Forall plain_entry (t_default src) ->
  (c_never_drop cfg = false \/ forall e, In e (t_acl src ++ t_default src) -> granted acl_u acl_g e <> None) ->
  (t_default src = [] \/ valid_acl (stands_for acl_u acl_g (t_default src)) = true) ->
  exists t', copy_attribs root fits timely cfg own_u own_g acl_u acl_g src t = Some t'.
Proof.
  intros root fits timely cfg own_u own_g acl_u acl_g src t K NS HM HP HO HE FA FD KN VD.
  rewrite copy_parts by assumption.
  assert (P1 : exists n1, run (part1 root fits cfg own_u own_g src) t = Some n1).
  { unfold part1. rewrite run_app.
    assert (exists n, run (if c_own cfg then [sys_chown root (own_u (t_uid src)) (own_g (t_gid src))] else []) t = Some n /\ i_has_ea n = i_has_ea t) as (n & -> & HEn).
    { destruct (c_own cfg); cbn [run]; [|eauto]. rewrite (HO eq_refl).
      destruct (sys_chown true (own_u (t_uid src)) (own_g (t_gid src)) t) as [x|] eqn:E; [|discriminate E].
      exists x. split; [reflexivity|]. now apply chown_spec in E. }
    destruct (c_ea cfg); [|cbn; eauto].
    assert (KS : is_ksym (t_kind src) = false) by (revert NS; destruct (t_kind src); intros; try reflexivity; congruence).
    rewrite KS. cbn [app run]. destruct (write_ea_ok root fits (t_ea src) (chmod cfg (N.lor (t_perms src) 438) n)) as (x & ->).
    - cbn. rewrite HEn. now apply HE.
    - eauto. }
  destruct P1 as (n1 & ->). unfold part2. cbn [app run]. set (n2 := chmod cfg (t_perms src) n1).
  rewrite run_app.
  assert (exists n, run (if c_acl cfg then [set_rp_acl cfg acl_u acl_g true (t_acl src) (t_default src)] else []) n2 = Some n) as (n & ->).
  { destruct (c_acl cfg); cbn [run]; [|eauto]. unfold set_rp_acl.
    assert (KA : c_never_drop cfg = false \/ forall e, In e (t_acl src) -> granted acl_u acl_g e <> None).
    { destruct KN as [N|N]; [now left|right; intros e He; apply N, in_or_app; now left]. }
    assert (KD : c_never_drop cfg = false \/ forall e, In e (t_default src) -> granted acl_u acl_g e <> None).
    { destruct KN as [N|N]; [now left|right; intros e He; apply N, in_or_app; now right]. }
    rewrite (list_to_acl_spec cfg acl_u acl_g _ FA KA), (list_to_acl_spec cfg acl_u acl_g _ FD KD).
    destruct (sys_setacl _ n2) as [n3|]; [|eauto]. destruct (is_kdir (i_kind n3)); [|eauto].
    unfold sys_setdefault. destruct VD as [E|V]; [rewrite E; cbn; eauto|]. rewrite V. destruct (stands_for acl_u acl_g (t_default src)); eauto. }
  destruct (t_kind src); cbn; eauto.
Qed.
Print Assumptions C70_copying_succeeds.

(** ** From one file to another *)
(** a file with attributes as the system allows them *)
Record sound (s : inode) : Prop := mk_sound {
  so_mode : i_mode s < 4096;
  so_owner : (0 <= i_uid s /\ 0 <= i_gid s)%Z;
  so_acl : forall l, i_acl s = Some l -> agrees l (i_mode s) /\ (3 < length l)%nat /\ Forall (fun e => snd e < 8) l;
  so_default : i_default s = [] \/ (i_kind s = KDir /\ valid_acl (i_default s) = true /\ Forall (fun e => snd e < 8) (i_default s));
  so_names : NoDup (map fst (i_xattr s));
  so_possible : forall x, In x (map fst (i_xattr s)) -> possible true (i_kind s) x = true;
  so_ea : i_has_ea s = true }.

Lemma ids_known l : valid_acl l = true -> forall e, In e l -> no_id (fst e) = false.
Proof.
  unfold valid_acl. rewrite !andb_true_iff. intros (_ & H) e He. apply Nat.eqb_eq in H. unfold count in H.
  destruct (no_id (fst e)) eqn:E; [exfalso|reflexivity].
  assert (In e (filter (fun e => no_id (fst e)) l)) by (apply filter_In; auto).
  destruct (filter (fun e => no_id (fst e)) l); [contradiction|discriminate].
Qed.
Lemma entry_of_spec (acl_u acl_g : option Z -> option bytes -> option Z) uname gname l :
  (forall i, acl_u (Some i) (uname i) = Some i) -> (forall i, acl_g (Some i) (gname i) = Some i) ->
  Forall (fun e : kentry => snd e < 8) l -> (forall e, In e l -> no_id (fst e) = false) ->
  Forall plain_entry (map (entry_of uname gname) l) /\ stands_for acl_u acl_g (map (entry_of uname gname) l) = l.
Proof.
  intros HU HG F N. induction l as [|[t p] l IH]; [split; [constructor|reflexivity]|].
  inversion F as [|? ? Hp F']; subst. destruct IH as [IH1 IH2]; [assumption|intros; apply N; now right|].
  cbn [snd] in Hp. specialize (N (t, p) (or_introl eq_refl)). cbn [fst] in N.
  unfold stands_for in *. cbn [map known].
  assert (G : granted acl_u acl_g (entry_of uname gname (t, p)) = Some (t, p)).
  { unfold granted, entry_of. destruct t as [|[i|]| |[i|]| |]; try discriminate N; cbn [fst snd e_pair e_tag e_perms]; try reflexivity.
    - change (Ascii.eqb (chr 117) "u") with true. cbv iota. now rewrite HU.
    - change (Ascii.eqb (chr 103) "u") with false. cbv iota. now rewrite HG. }
  rewrite G, IH2. split; [|reflexivity]. constructor; [|exact IH1].
  destruct t as [|[i|]| |[i|]| |]; try discriminate N; (split; [exact Hp|]); cbn [entry_of fst snd e_pair e_tag e_perms].
  1,3,5,6: left; split; [cbn; tauto|reflexivity].
  all: right; split; [cbn; tauto|discriminate].
Qed.
Lemma filter_all {A} (f : A -> bool) l : (forall x, In x l -> f x = true) -> filter f l = l.
Proof. induction l as [|a l IH]; intros H; [reflexivity|]. cbn. rewrite (H a) by now left. f_equal. apply IH. intros; apply H; now right. Qed.
Lemma possible_keeps k x : possible true k x = true -> keeps k x = true.
Proof.
  intros H. unfold keeps. 
  assert (S : starts_with (bs "system.") x = false).
  { destruct (starts_with (bs "system.") x) eqn:E; [exfalso|reflexivity]. unfold possible in H.
    apply starts_with_spec in E. destruct E as [t ->].
    vm_compute in H. discriminate H. }
  rewrite S. cbn [negb andb]. apply orb_true_iff. right. apply negb_true_iff.
  destruct (beq_bytes x RESOURCE_FORK) eqn:E; [exfalso|reflexivity]. apply beq_bytes_true in E. subst x. vm_compute in H. discriminate.
Qed.

(** Root copies the attributes of one sound file to another one of the same kind: afterwards
    they are the same, whatever the second one had. *)
Theorem C70_source_to_target :
  forall fits timely cfg own_u own_g acl_u acl_g uname gname s t,
  sound s -> In (i_kind s) [KReg; KDir; KDev] -> i_kind t = i_kind s -> i_has_ea t = true ->
  c_mask cfg = 4095 -> c_own cfg = true -> c_ea cfg = true -> c_acl cfg = true ->
  (forall i, own_u i = i) -> (forall i, own_g i = i) ->
  (forall i, acl_u (Some i) (uname i) = Some i) -> (forall i, acl_g (Some i) (gname i) = Some i) ->
  (forall x v, value x (i_xattr s) = Some v -> fits x v = true) -> timely (i_mtime s) = true ->
  exists t', copy_attribs true fits timely cfg own_u own_g acl_u acl_g (attrs_of uname gname s) t = Some t' /\
  i_uid t' = i_uid s /\ i_gid t' = i_gid s /\ i_mode t' = i_mode s /\ i_acl t' = i_acl s /\
  (i_kind s = KDir -> i_default t' = i_default s) /\ (i_kind s <> KDev -> i_mtime t' = i_mtime s) /\
  (forall x, possible true (i_kind s) x = true -> value x (i_xattr t') = value x (i_xattr s)).
Proof.
  intros fits timely cfg own_u own_g acl_u acl_g uname gname s t So IK KT HEA HM CO CE CA OU OG AU AGr FI TI.
  set (src := attrs_of uname gname s).
  assert (NS : t_kind src <> KSym) by (cbn in *; intuition congruence).
  assert (KS : is_ksym (i_kind s) = false) by (cbn in NS; destruct (i_kind s); try reflexivity; congruence).
  assert (GA : exists l, sys_getacl s = l /\ Forall (fun e : kentry => snd e < 8) l /\ agrees l (i_mode s) /\
     i_acl s = if Nat.leb (length l) 3 then None else Some l).
  { eexists. split; [reflexivity|]. unfold sys_getacl. destruct (i_acl s) as [l|] eqn:EA.
    - destruct (so_acl s So l EA) as (A & L & F). split; [exact F|]. split; [exact A|].
      destruct (Nat.leb_spec (length l) 3); [lia|reflexivity].
    - assert (B : forall x, x mod 8 < 8) by (intros; apply N.mod_lt; discriminate).
      split; [repeat constructor; apply B|]. split; [|reflexivity]. repeat split. }
  destruct GA as (l & EL & FL & AG & EA).
  destruct (entry_of_spec acl_u acl_g uname gname l AU AGr FL) as [PA SA]; [apply ids_known; apply AG|].
  assert (TA : t_acl src = map (entry_of uname gname) l) by (cbn; now rewrite KS, EL).
  assert (GD : Forall plain_entry (t_default src) /\ (i_kind s = KDir -> stands_for acl_u acl_g (t_default src) = i_default s) /\
     (t_default src = [] \/ valid_acl (stands_for acl_u acl_g (t_default src)) = true) /\
     forall e, In e (t_default src) -> granted acl_u acl_g e <> None).
  { cbn [src attrs_of t_default]. destruct (is_kdir (i_kind s)) eqn:KD.
    - destruct (so_default s So) as [E|(_ & V & F)].
      + rewrite E. cbn. split; [constructor|]. split; [auto|]. split; [now left|]. intros e [].
      + destruct (entry_of_spec acl_u acl_g uname gname (i_default s) AU AGr F) as [P S2]; [now apply ids_known|].
        split; [exact P|]. split; [intros _; exact S2|]. split; [right; now rewrite S2|].
        intros e He. apply in_map_iff in He. destruct He as ((tg & p) & <- & He).
        pose proof (ids_known _ V _ He) as N. cbn [fst] in N. unfold granted, entry_of.
        destruct tg as [|[i|]| |[i|]| |]; try discriminate N; cbn [fst snd e_pair e_tag e_perms]; try discriminate.
        * change (Ascii.eqb (chr 117) "u") with true. cbv iota. rewrite AU. discriminate.
        * change (Ascii.eqb (chr 103) "u") with false. cbv iota. rewrite AGr. discriminate.
    - split; [constructor|]. split; [intros Q; rewrite Q in KD; discriminate|]. split; [now left|]. intros e []. }
  destruct GD as (PD & SD & VD & KND).
  assert (KNA : forall e, In e (t_acl src) -> granted acl_u acl_g e <> None).
  { rewrite TA. intros e He. apply in_map_iff in He. destruct He as ((tg & p) & <- & He).
    pose proof (ids_known l (proj1 AG) _ He) as N. cbn [fst] in N. unfold granted, entry_of.
    destruct tg as [|[i|]| |[i|]| |]; try discriminate N; cbn [fst snd e_pair e_tag e_perms]; try discriminate.
    - change (Ascii.eqb (chr 117) "u") with true. cbv iota. rewrite AU. discriminate.
    - change (Ascii.eqb (chr 103) "u") with false. cbv iota. rewrite AGr. discriminate. }
  assert (EE : t_ea src = i_xattr s).
  { cbn [src attrs_of t_ea]. unfold get_ea. rewrite (so_ea s So).
    assert (E : filter (fun p => keeps (i_kind s) (fst p)) (i_xattr s) = i_xattr s).
    { apply filter_all. intros [x v] Hx. apply possible_keeps, (so_possible s So). apply in_map_iff. now exists (x, v). }
    rewrite E. destruct IK as [<-|[<-|[<-|[]]]]; reflexivity. }
  destruct (C70_copying_succeeds true fits timely cfg own_u own_g acl_u acl_g src t) as (t' & Ht'); auto.
  - apply (so_mode s So).
  - now rewrite TA.
  - right. intros e He. apply in_app_or in He. destruct He; auto.
  - exists t'. split; [exact Ht'|].
    apply C70_attributes_copied in Ht'; auto.
    + destruct Ht' as (M & O & T & A & V). destruct (O CO) as [O1 O2]. destruct (A CA) as [A1 A2]. specialize (V CE).
      cbn [src attrs_of t_uid t_gid t_perms t_mtime t_kind] in *. rewrite OU in O1. rewrite OG in O2.
      destruct (so_owner s So). split; [apply O1; lia|]. split; [apply O2; lia|]. split; [exact M|].
      split; [rewrite A1, EA; fold src; now rewrite TA, SA|]. split; [intros KD; rewrite (A2 KD); now apply SD|].
      split; [intros NK; now apply T|]. intros x Px. rewrite (V x) by now left. rewrite KT, Px. fold src. rewrite EE.
      destruct (value x (i_xattr s)) as [v|] eqn:Ev; [|reflexivity]. now rewrite (FI x v Ev).

    + apply (so_mode s So).
    + rewrite EE. apply (so_names s So).
    + now rewrite TA.
    + right. rewrite TA, SA. exact AG.
Qed.
Print Assumptions C70_source_to_target.

(** ** Meanwhile *)
Lemma chown_mode root u g n n' : sys_chown root u g n = Some n' -> i_mode n' = i_mode n \/ i_mode n' = kill_suid (i_mode n).
Proof. unfold sys_chown. destruct (_ && _); [discriminate|]. intros [= <-]. destruct (is_kdir (i_kind n)); [now left|now right]. Qed.
Lemma setmtime_mode timely t n : i_mode (setmtime timely t n) = i_mode n.
Proof. unfold setmtime. now destruct (timely t). Qed.
Lemma chmod_mode cfg p n : c_mask cfg = 4095 -> p < 4096 -> i_mode (chmod cfg p n) = p.
Proof. intros M H. unfold chmod, sys_chmod. cbn [i_mode with_acl with_mode]. rewrite M. now apply land_4095. Qed.
Lemma lor_small p : p < 4096 -> N.lor p 438 < 4096.
Proof.
  intros H. destruct (N.eq_dec (N.lor p 438) 0) as [->|NZ]; [reflexivity|]. change 4096 with (2 ^ 12). apply N.log2_lt_pow2; [lia|].
  rewrite N.log2_lor. apply N.max_lub_lt; [|reflexivity]. destruct (N.eq_dec p 0) as [->|Np]; [reflexivity|].
  apply N.log2_lt_pow2; [lia|exact H].
Qed.

(** While the attributes are written, the permissions are those of before (without the
    set-user-id bits), or those asked for - or, if there are extended attributes to write,
    those with reading and writing for everybody. *)
Theorem C70_permissions_meanwhile :
  forall root fits timely cfg own_u own_g acl_u acl_g src t h x,
  t_kind src = i_kind t -> t_kind src <> KSym -> t_perms src < 4096 -> c_mask cfg = 4095 ->
  NoDup (map fst (t_ea src)) -> Forall plain_entry (t_acl src) -> Forall plain_entry (t_default src) ->
  (t_acl src = [] \/ agrees (stands_for acl_u acl_g (t_acl src)) (t_perms src)) ->
  history root fits timely cfg own_u own_g acl_u acl_g src t = Some h -> In x h ->
  In (i_mode x) [i_mode t; kill_suid (i_mode t); t_perms src] \/
  (c_ea cfg = true /\ i_mode x = N.lor (t_perms src) 438).
Proof.
  intros root fits timely cfg own_u own_g acl_u acl_g src t h x K NS HP HM ND FA FD AG H Hx.
  unfold history, steps_of in H.
  assert (E : is_ksym (t_kind src) = false) by (revert NS; destruct (t_kind src); intros; try reflexivity; congruence).
  rewrite E in H.
  assert (T : (match t_kind src with KDev => [] | _ => [fun n => Some (setmtime timely (t_mtime src) n)] end) = [] \/
     (match t_kind src with KDev => [] | _ => [fun n => Some (setmtime timely (t_mtime src) n)] end) = [fun n => Some (setmtime timely (t_mtime src) n)])
    by (destruct (t_kind src); auto).
  pose proof (chmod_mode cfg (t_perms src)) as M1. pose proof (chmod_mode cfg (N.lor (t_perms src) 438)) as M2.
  pose proof (lor_small _ HP) as HL.
  assert (AC : forall n n', i_mode n = t_perms src -> set_rp_acl cfg acl_u acl_g true (t_acl src) (t_default src) n = Some n' -> i_mode n' = t_perms src).
  { intros n n' Hn Hn'. eapply set_rp_acl_spec; eassumption. }
  assert (WE : forall n n', write_ea root fits (t_ea src) (chmod cfg (N.lor (t_perms src) 438) n) = Some n' -> i_mode n' = N.lor (t_perms src) 438).
  { intros n n' W. apply write_ea_spec in W; [|assumption|right; now apply writable_666]. destruct W as ((_ & _ & _ & D & _) & _). rewrite D. now apply M2. }
  assert (T2 : forall n0 r h, i_mode n0 = t_perms src -> (forall y, In y r -> In (i_mode y) [i_mode t; kill_suid (i_mode t); t_perms src] \/ (c_ea cfg = true /\ i_mode y = N.lor (t_perms src) 438)) ->
     fold_left (fun h f => then_ f h) ((if c_acl cfg then [set_rp_acl cfg acl_u acl_g true (t_acl src) (t_default src)] else []) ++
        match t_kind src with KDev => [] | _ => [fun n => Some (setmtime timely (t_mtime src) n)] end) (Some (n0 :: r)) = Some h ->
     forall y, In y h -> In (i_mode y) [i_mode t; kill_suid (i_mode t); t_perms src] \/ (c_ea cfg = true /\ i_mode y = N.lor (t_perms src) 438)).
  { intros n0 r h' Hn Hr Hf y Hy. destruct (c_acl cfg); cbn [app fold_left then_] in Hf.
    - destruct (set_rp_acl cfg acl_u acl_g true (t_acl src) (t_default src) n0) as [n1|] eqn:A; [|now rewrite fold_none in Hf].
      apply AC in A; [|assumption].
      destruct T as [T|T]; rewrite T in Hf; cbn [fold_left then_] in Hf; injection Hf as <-.
      + destruct Hy as [<-|[<-|Hy]]; [left; cbn; auto|left; cbn; auto|auto].
      + destruct Hy as [<-|[<-|[<-|Hy]]]; [left; rewrite setmtime_mode; cbn; auto|left; cbn; auto|left; cbn; auto|auto].
    - destruct T as [T|T]; rewrite T in Hf; cbn [fold_left then_] in Hf; injection Hf as <-.
      + destruct Hy as [<-|Hy]; [left; cbn; auto|auto].
      + destruct Hy as [<-|[<-|Hy]]; [left; rewrite setmtime_mode; cbn; auto|left; cbn; auto|auto]. }
  assert (T1 : forall n0 r, (forall y, In y (n0 :: r) -> In (i_mode y) [i_mode t; kill_suid (i_mode t); t_perms src] \/ (c_ea cfg = true /\ i_mode y = N.lor (t_perms src) 438)) ->
     fold_left (fun h f => then_ f h) ([fun n => Some (chmod cfg (t_perms src) n)] ++ (if c_acl cfg then [set_rp_acl cfg acl_u acl_g true (t_acl src) (t_default src)] else []) ++
        match t_kind src with KDev => [] | _ => [fun n => Some (setmtime timely (t_mtime src) n)] end) (Some (n0 :: r)) = Some h ->
     forall y, In y h -> In (i_mode y) [i_mode t; kill_suid (i_mode t); t_perms src] \/ (c_ea cfg = true /\ i_mode y = N.lor (t_perms src) 438)).
  { intros n0 r Hr Hf. rewrite fold_left_app in Hf. eapply T2; [| |exact Hf]; [now apply M1|exact Hr]. }
  clear T2 T AC.
  assert (T0 : forall n0 r, (forall y, In y (n0 :: r) -> In (i_mode y) [i_mode t; kill_suid (i_mode t); t_perms src] \/ (c_ea cfg = true /\ i_mode y = N.lor (t_perms src) 438)) ->
     fold_left (fun h f => then_ f h) ((if c_ea cfg then [fun n => Some (chmod cfg (N.lor (t_perms src) 438) n)] ++ [write_ea root fits (t_ea src)] else []) ++
        [fun n => Some (chmod cfg (t_perms src) n)] ++ (if c_acl cfg then [set_rp_acl cfg acl_u acl_g true (t_acl src) (t_default src)] else []) ++
        match t_kind src with KDev => [] | _ => [fun n => Some (setmtime timely (t_mtime src) n)] end) (Some (n0 :: r)) = Some h ->
     forall y, In y h -> In (i_mode y) [i_mode t; kill_suid (i_mode t); t_perms src] \/ (c_ea cfg = true /\ i_mode y = N.lor (t_perms src) 438)).
  { intros n0 r Hr Hf. rewrite fold_left_app in Hf. destruct (c_ea cfg); [|exact (T1 _ _ Hr Hf)].
    cbn [app fold_left then_] in Hf. destruct (write_ea root fits (t_ea src) (chmod cfg (N.lor (t_perms src) 438) n0)) as [n1|] eqn:W.
    - refine (T1 _ _ _ Hf). intros y [<-|[<-|Hy]]; [right; split; [reflexivity|]; now apply WE in W|right; split; [reflexivity|now apply M2]|now apply Hr].
    - exfalso. revert Hf. rewrite fold_none. discriminate. }
  clear T1. rewrite fold_left_app in H.
  destruct (c_own cfg); cbn [fold_left then_] in H.
  - destruct (sys_chown root (own_u (t_uid src)) (own_g (t_gid src)) t) as [n1|] eqn:C; [|now rewrite fold_none in H].
    eapply T0; [|exact H|exact Hx]. intros y [<-|[<-|[]]]; left; [|cbn; auto].
    apply chown_mode in C. destruct C as [-> | ->]; cbn; auto.
  - eapply T0; [|exact H|exact Hx]. intros y [<-|[]]. left. cbn. auto.
Qed.
Print Assumptions C70_permissions_meanwhile.

(** The last case happens: a file of its owner only, before and after, can be read and
    written by everybody in between. *)
Definition private_file : inode := mk_inode KReg 1000 1000 384 [] None [] 5 true.
Definition private_attrs : attrs := mk_attrs KReg 1000 1000 384 [(bs "user.a", bs "v")] [] [] 7.
Definition all_on : config := mk_config true true true false 4095.
Theorem C70_window_refuted :
  exists h x, history true (fun _ _ => true) (fun _ => true) all_on (fun u => u) (fun g => g)
                (fun i _ => i) (fun i _ => i) private_attrs private_file = Some h /\ In x h /\
    i_mode private_file = 384 /\ t_perms private_attrs = 384 /\ i_mode x = 438.
Proof.
  eexists; eexists. split; [vm_compute; reflexivity|]. split; [right; right; right; left; reflexivity|].
  repeat split; reflexivity.
Qed.
Print Assumptions C70_window_refuted.

(** Without extended attributes there is no such time. *)
Theorem C70_no_window_without_attributes :
  forall root fits timely cfg own_u own_g acl_u acl_g src t h x,
  t_kind src = i_kind t -> t_kind src <> KSym -> t_perms src < 4096 -> c_mask cfg = 4095 ->
  NoDup (map fst (t_ea src)) -> Forall plain_entry (t_acl src) -> Forall plain_entry (t_default src) ->
  (t_acl src = [] \/ agrees (stands_for acl_u acl_g (t_acl src)) (t_perms src)) ->
  c_ea cfg = false ->
  history root fits timely cfg own_u own_g acl_u acl_g src t = Some h -> In x h ->
  forall bit, N.testbit (i_mode x) bit = true -> N.testbit (i_mode t) bit = true \/ N.testbit (t_perms src) bit = true.
Proof.
  intros root fits timely cfg own_u own_g acl_u acl_g src t h x K NS HP HM ND FA FD AG CE H Hx b Hb.
  destruct (C70_permissions_meanwhile root fits timely cfg own_u own_g acl_u acl_g src t h x K NS HP HM ND FA FD AG H Hx)
    as [[E|[E|[E|[]]]]|[E _]]; [rewrite E; auto| |rewrite E; auto|congruence].
  left. rewrite <- E in Hb. unfold kill_suid in Hb.
  destruct (N.testbit (N.ldiff (i_mode t) 2048) 3); rewrite !N.ldiff_spec in Hb; repeat rewrite andb_true_iff in Hb; tauto.
Qed.
Print Assumptions C70_no_window_without_attributes.

(** A file on a file system without extended attributes (mounted below a directory on one
    which has them) stops the backup: what the system raises isn't what is caught. *)
Theorem C70_unsupported_refuted :
  forall root fits timely cfg own_u own_g acl_u acl_g src t,
  c_ea cfg = true -> i_has_ea t = false ->
  copy_attribs root fits timely cfg own_u own_g acl_u acl_g src t = None.
Proof.
  intros root fits timely cfg own_u own_g acl_u acl_g src t CE HE. unfold copy_attribs, history. rewrite fold_run.
  unfold steps_of. rewrite CE. rewrite run_app.
  assert (Q : forall n, i_has_ea n = false -> write_ea root fits (t_ea src) n = None) by (intros n Hn; unfold write_ea, clear_rp; now rewrite Hn).
  assert (F : forall n r, i_has_ea n = false -> run (((if is_ksym (t_kind src) then [] else [fun n => Some (chmod cfg (N.lor (t_perms src) 438) n)]) ++ [write_ea root fits (t_ea src)]) ++ r) n = None).
  { intros n r Hn. destruct (is_ksym (t_kind src)); cbn [app run]; rewrite Q; auto. }
  destruct (c_own cfg); cbn [run].
  - destruct (sys_chown root _ _ t) as [n1|] eqn:C; [|reflexivity]. apply F. apply chown_spec in C. destruct C as (_ & _ & C & _). congruence.
  - now apply F.
Qed.
Print Assumptions C70_unsupported_refuted.

(** ** Symbolic links and increments *)
(** Symbolic links get owner and the attributes root may write. *)
Theorem C70_symlinks :
  forall root fits timely cfg own_u own_g acl_u acl_g src t t',
  t_kind src = KSym -> i_kind t = KSym -> NoDup (map fst (t_ea src)) ->
  copy_attribs root fits timely cfg own_u own_g acl_u acl_g src t = Some t' ->
  (c_own cfg = true -> (own_u (t_uid src) <> -1 -> i_uid t' = own_u (t_uid src))%Z /\
                       (own_g (t_gid src) <> -1 -> i_gid t' = own_g (t_gid src))%Z) /\
  (c_ea cfg = true -> root = true -> forall name,
     value name (i_xattr t') =
     if starts_with (bs "trusted.") name || starts_with (bs "security.") name
     then match value name (t_ea src) with Some v => if fits name v then Some v else None | None => None end
     else value name (i_xattr t)).
Proof.
  intros root fits timely cfg own_u own_g acl_u acl_g src t t' KS KT ND H.
  unfold copy_attribs, history in H. rewrite fold_run in H. unfold steps_of in H. rewrite KS in H. cbn [is_ksym app] in H. rewrite app_nil_r in H.
  rewrite run_app in H.
  assert (P : forall name, possible true KSym name = (starts_with (bs "trusted.") name || starts_with (bs "security.") name)).
  { intros name. unfold possible. destruct (starts_with (bs "user.") name) eqn:E; [|apply andb_true_r].
    apply starts_with_spec in E. destruct E as [u ->]. reflexivity. }
  assert (S1 : forall n1, run (if c_own cfg then [sys_chown root (own_u (t_uid src)) (own_g (t_gid src))] else []) t = Some n1 ->
     i_kind n1 = KSym /\ (c_own cfg = true -> ids t (own_u (t_uid src)) (own_g (t_gid src)) n1) /\
     (forall m, root = true -> possible root KSym m = false -> value m (i_xattr n1) = value m (i_xattr t))).
  { intros n1. destruct (c_own cfg); cbn [run].
    - destruct (sys_chown root _ _ t) as [x|] eqn:E; [|discriminate]. intros [= <-].
      destruct (chown_spec _ _ _ _ _ E) as (A & B & C & D). rewrite KT in *. repeat split; auto; apply B.
    - intros [= <-]. repeat split; auto; discriminate. }
  destruct (run (if c_own cfg then _ else _) t) as [n1|]; [|discriminate]. destruct (S1 n1 eq_refl) as (K1 & I1 & V1). clear S1.
  destruct (c_ea cfg); cbn [run] in H.
  - destruct (write_ea root fits (t_ea src) n1) as [n2|] eqn:W; [|discriminate]. injection H as <-. split.
    + intros HO. assert (L : like n1 n2).
      { unfold write_ea in W. destruct (clear_rp root n1) as [c|] eqn:C; [|discriminate]. injection W as <-.
        apply clear_spec in C. destruct C as (_ & L1 & _). destruct (set_all_spec root fits (t_ea src) ND c) as (L2 & _).
        eapply like_trans; eassumption. }
      destruct L as (_ & U & G & _). destruct (I1 HO). rewrite U, G. split; assumption.
    + intros _ R name. subst root. apply write_ea_spec in W; [|assumption|now left]. destruct W as (_ & V). rewrite V, K1. unfold written.
      rewrite P. destruct (_ || _) eqn:E; [reflexivity|]. apply V1; [reflexivity|]. now rewrite P.
  - injection H as <-. split; [|discriminate]. intros HO. destruct (I1 HO). split; assumption.
Qed.
Print Assumptions C70_symlinks.

(** An increment gets the permissions of the file it is of; the marker of a directory, a
    file itself, gets only those of reading, writing and executing. *)
Theorem C70_increment_permissions :
  forall root fits timely cfg acl_u acl_g src inc inc',
  c_mask cfg = 4095 -> t_kind src <> KSym -> t_perms src < 4096 -> c_acl cfg = false ->
  copy_attribs_inc root fits timely cfg acl_u acl_g src inc = Some inc' ->
  i_mode inc' = if is_kdir (t_kind src) && negb (is_kdir (i_kind inc)) then (t_perms src) mod 512 else t_perms src.
Proof.
  intros root fits timely cfg acl_u acl_g src inc inc' HM NS HP CA H. unfold copy_attribs_inc in H. rewrite fold_run in H.
  unfold inc_steps in H. rewrite CA in H.
  assert (E : is_ksym (t_kind src) = false) by (revert NS; destruct (t_kind src); intros; try reflexivity; congruence).
  rewrite E in H. rewrite run_app in H.
  destruct (run (if c_own cfg then _ else _) inc) as [n1|] eqn:E1; [|discriminate].
  assert (K1 : i_kind n1 = i_kind inc).
  { destruct (c_own cfg); cbn [run] in E1; [|now injection E1 as <-]. destruct (sys_chown root _ _ inc) as [x|] eqn:C; [|discriminate].
    injection E1 as <-. apply chown_spec in C. apply C. }
  rewrite run_app in H. destruct (run (if c_ea cfg then _ else _) n1) as [n2|] eqn:E2; [|discriminate].
  assert (K2 : i_kind n2 = i_kind inc).
  { destruct (c_ea cfg); cbn [run] in E2; [|now injection E2 as <-]. destruct (write_ea root fits (t_ea src) n1) as [x|] eqn:W; [|discriminate].
    injection E2 as <-. unfold write_ea in W. destruct (clear_rp root n1) as [c|] eqn:C; [|discriminate]. injection W as <-.
    apply clear_spec in C. destruct C as (_ & L1 & _). rewrite <- K1. transitivity (i_kind c); [|apply L1].
    clear. generalize (t_ea src) as d. intros d. revert c. induction d as [|[k v] d IH]; intros c; [reflexivity|]. cbn [set_all]. rewrite IH.
    unfold sys_setxattr. now destruct (_ && _). }
  cbn [app run] in H. rewrite K2 in H.
  assert (M : i_mode inc' = N.land (if is_kdir (t_kind src) && negb (is_kdir (i_kind inc)) then N.land (t_perms src) 511 else t_perms src) 4095).
  { destruct (t_kind src); cbn [run] in H; injection H as <-; rewrite ?setmtime_mode; unfold chmod, sys_chmod; cbn [i_mode with_acl with_mode]; now rewrite HM. }
  rewrite M. destruct (_ && _).
  - change 511 with (N.ones 9). rewrite N.land_ones. apply land_4095. pose proof (N.mod_lt (t_perms src) (2 ^ 9)). cbn in *. lia.
  - now apply land_4095.
Qed.
Print Assumptions C70_increment_permissions.

(** ** All attributes of increments *)
Definition by_id (i : option Z) (_ : option bytes) : option Z := i.
Definition strict (cfg : config) : config := mk_config (c_own cfg) (c_ea cfg) (c_acl cfg) true (c_mask cfg).
Lemma unmapped cfg acl_u acl_g l : Forall plain_entry l ->
  list_to_acl cfg acl_u acl_g false l = list_to_acl (strict cfg) by_id by_id true l.
Proof.
  induction l as [|e l IH]; intros F; [reflexivity|]. inversion F as [|? ? (Hp & HE) F']; subst. specialize (IH F').
  cbn [list_to_acl strict c_never_drop]. rewrite IH. destruct e as [tag pair perms]. cbn [e_tag e_pair e_perms] in *.
  destruct HE as [[HT HN]|[HT HN]]; [now rewrite HN|]. destruct pair as [[id name]|]; [|congruence].
  cbn in HT. destruct HT as [HT|[HT|[]]]; subst tag.
  - change (Ascii.eqb "u" (chr 117)) with true. cbn [orb]. cbv iota. unfold by_id at 1. now destruct id.
  - change (Ascii.eqb "g" (chr 117)) with false. change (Ascii.eqb "g" (chr 103)) with true. cbn [orb]. cbv iota. unfold by_id at 2. now destruct id.
Qed.
Lemma classes_mod p : ((p mod 512) / 64) mod 8 = (p / 64) mod 8 /\ ((p mod 512) / 8) mod 8 = (p / 8) mod 8 /\ (p mod 512) mod 8 = p mod 8.
Proof.
  assert (H : forall a b c, a <> 0 -> b <> 0 -> c = a * b -> ((p mod c) / a) = (p / a) mod b).
  { intros a b c Ha Hb ->. rewrite N.mod_mul_r by assumption.
    rewrite (N.mul_comm a), N.div_add, N.div_small by (try assumption; now apply N.mod_lt). reflexivity. }
  assert (D : forall q b c, b <> 0 -> c <> 0 -> (q mod (b * c)) mod b = q mod b).
  { intros q b c Hb Hc. rewrite N.mod_mul_r by assumption. rewrite (N.mul_comm b ((q / b) mod c)), N.mod_add by assumption. now apply N.mod_mod. }
  split; [|split].
  - rewrite (H 64 8 512) by easy. now apply N.mod_mod.
  - rewrite (H 8 64 512) by easy. now apply (D _ 8 8).
  - now apply (D _ 8 64).
Qed.

(** Root gives an increment all attributes of the file it is of: the owner unmapped, the ACL
    by the numbers in it, the extended attributes; the marker of a directory gets no
    default ACL and no set-group-id or sticky bit. *)
Theorem C70_increment_attributes :
  forall fits timely cfg acl_u acl_g src inc inc',
  c_mask cfg = 4095 -> t_kind src <> KSym -> t_perms src < 4096 ->
  t_kind src = i_kind inc \/ (t_kind src = KDir /\ i_kind inc = KReg) ->
  NoDup (map fst (t_ea src)) -> Forall plain_entry (t_acl src) -> Forall plain_entry (t_default src) ->
  (t_acl src = [] \/ agrees (stands_for by_id by_id (t_acl src)) (t_perms src)) ->
  copy_attribs_inc true fits timely cfg acl_u acl_g src inc = Some inc' ->
  i_mode inc' = (if is_kdir (t_kind src) && negb (is_kdir (i_kind inc)) then (t_perms src) mod 512 else t_perms src) /\
  (c_own cfg = true -> (t_uid src <> -1 -> i_uid inc' = t_uid src)%Z /\ (t_gid src <> -1 -> i_gid inc' = t_gid src)%Z) /\
  (t_kind src <> KDev -> timely (t_mtime src) = true -> i_mtime inc' = t_mtime src) /\
  (c_acl cfg = true ->
     i_acl inc' = (if Nat.leb (length (stands_for by_id by_id (t_acl src))) 3 then None
                   else Some (stands_for by_id by_id (t_acl src))) /\
     (i_kind inc = KDir -> i_default inc' = stands_for by_id by_id (t_default src))) /\
  (c_ea cfg = true -> forall name,
     value name (i_xattr inc') =
     if possible true (i_kind inc) name
     then match value name (t_ea src) with Some v => if fits name v then Some v else None | None => None end
     else value name (i_xattr inc)).
Proof.
  intros fits timely cfg acl_u acl_g src inc inc' HM NS HP KK ND FA FD AG H. unfold copy_attribs_inc in H. rewrite fold_run in H.
  unfold inc_steps in H.
  assert (E : is_ksym (t_kind src) = false) by (revert NS; destruct (t_kind src); intros; try reflexivity; congruence).
  rewrite E in H. rewrite run_app in H.
  destruct (run (if c_own cfg then _ else _) inc) as [n1|] eqn:E1; [|discriminate].
  assert (S1 : i_kind n1 = i_kind inc /\ (c_own cfg = true -> ids inc (t_uid src) (t_gid src) n1) /\
     forall m, possible true (i_kind inc) m = false -> value m (i_xattr n1) = value m (i_xattr inc)).
  { destruct (c_own cfg); cbn [run] in E1; [|injection E1 as <-; repeat split; intros; discriminate].
    destruct (sys_chown true _ _ inc) as [x|] eqn:C; [|discriminate].
    injection E1 as <-. apply chown_spec in C. destruct C as (A & B & _ & D). split; [exact A|]. split; [intros _; exact B|]. intros m. apply D. now left. }
  destruct S1 as (K1 & I1 & V1). clear E1.
  rewrite run_app in H. destruct (run (if c_ea cfg then _ else _) n1) as [n2|] eqn:E2; [|discriminate].
  assert (S2 : like n1 n2 /\ (c_ea cfg = true -> forall m, value m (i_xattr n2) = written true fits (i_kind n1) (t_ea src) (i_xattr n1) m)).
  { destruct (c_ea cfg); cbn [run] in E2; [|injection E2 as <-; split; [apply like_refl|discriminate]].
    destruct (write_ea true fits (t_ea src) n1) as [x|] eqn:W; [|discriminate]. injection E2 as <-.
    apply write_ea_spec in W; [|assumption|now left]. destruct W. split; auto. }
  destruct S2 as ((K2 & U2 & G2 & _) & V2). clear E2.
  set (p := if is_kdir (t_kind src) && negb (is_kdir (i_kind inc)) then (t_perms src) mod 512 else t_perms src).
  set (src' := mk_attrs (t_kind src) (t_uid src) (t_gid src) p (t_ea src) (t_acl src) (t_default src) (t_mtime src)).
  assert (R : run (part2 timely (strict cfg) by_id by_id src') n2 = Some inc').
  { rewrite <- H. unfold part2. cbn [app run t_kind t_perms t_acl t_default t_mtime src' strict c_acl].
    assert (Q : chmod cfg (if is_kdir (t_kind src) && negb (is_kdir (i_kind n2)) then N.land (t_perms src) 511 else t_perms src) n2 = chmod (strict cfg) p n2).
    { unfold chmod. cbn [c_mask strict]. rewrite K2, K1. unfold p. destruct (_ && _); [|reflexivity].
      change 511 with (N.ones 9). now rewrite N.land_ones. }
    rewrite Q. destruct (c_acl cfg); [|reflexivity]. cbn [app run]. unfold set_rp_acl. now rewrite !unmapped by assumption. }
  assert (HP' : p < 4096).
  { unfold p. destruct (_ && _); [|exact HP]. pose proof (N.mod_lt (t_perms src) 512). lia. }
  apply part2_spec in R; try assumption.
  - destruct R as (K3 & U3 & G3 & X3 & M3 & A3 & T3). cbn [t_perms t_kind t_mtime t_acl t_default src' strict c_acl] in *.
    split; [exact M3|]. split; [intros HO; destruct (I1 HO); rewrite U3, U2, G3, G2; split; assumption|]. split; [exact T3|].
    split; [intros HC; destruct (A3 HC) as [A B]; split; [exact A|intros KD; apply B; congruence]|].
    intros HE m. rewrite X3, (V2 HE), K1. unfold written. destruct (possible true (i_kind inc) m) eqn:Po; [reflexivity|]. now apply V1.
  - destruct AG as [AG|(A & B & C & D)]; [now left|right]. cbn [t_acl t_perms src']. unfold agrees, p. destruct (_ && _); [|repeat split; assumption].
    destruct (classes_mod (t_perms src)) as (X & Y & Z). rewrite X, Y, Z. repeat split; assumption.
Qed.
Print Assumptions C70_increment_attributes.

(** Unlike the copy of a file, its increment isn't made writable before the extended
    attributes are written: who isn't root loses those of a read-only increment, and is not told. *)
Theorem C70_increment_attributes_refuted :
  exists src inc inc',
  copy_attribs_inc false (fun _ _ => true) (fun _ => true) (mk_config false true true false 4095) (fun i _ => i) (fun i _ => i) src inc = Some inc' /\
  t_kind src = KReg /\ i_kind inc = KReg /\ i_has_ea inc = true /\
  value (bs "user.a") (t_ea src) = Some (bs "v") /\ value (bs "user.a") (i_xattr inc') = None.
Proof.
  exists (mk_attrs KReg 1000 1000 292 [(bs "user.a", bs "v")] [] [] 7), (mk_inode KReg 1000 1000 292 [] None [] 5 true).
  eexists. split; [vm_compute; reflexivity|]. repeat split; reflexivity.
Qed.
Print Assumptions C70_increment_attributes_refuted.

(** ** Concrete cases *)
(** an ACL with a named user and attributes, onto a file with others *)
Definition rich : inode :=
  mk_inode KReg 1000 100 2536 (* 4750 *) [(bs "user.a", bs "v"); (bs "security.capability", bs "c")]
    (Some [(TUser, 7); (TNamedUser (Some 1001%Z), 6); (TGroup, 4); (TMask, 5); (TOther, 0)]) [] 77 true.
Definition poor : inode := mk_inode KReg 0 0 292 [(bs "user.b", bs "w")] None [] 5 true.
Example rich_sound : sound rich.
Proof.
  split; try reflexivity; cbn.
  - lia.
  - intros l [= <-]. split; [repeat split|]. split; [cbn; lia|]. repeat constructor.
  - now left.
  - repeat constructor; cbn; intuition discriminate.
  - intros x [<-|[<-|[]]]; reflexivity.
Qed.
Example rich_to_poor :
  exists t', copy_attribs true (fun _ _ => true) (fun _ => true) all_on (fun u => u) (fun g => g) (fun i _ => i) (fun i _ => i)
    (attrs_of (fun _ => None) (fun _ => None) rich) poor = Some t' /\
    i_mode t' = 2536 /\ i_acl t' = i_acl rich /\ i_uid t' = 1000%Z /\ i_gid t' = 100%Z /\ i_mtime t' = 77%Z /\
    value (bs "user.a") (i_xattr t') = Some (bs "v") /\ value (bs "user.b") (i_xattr t') = None /\
    value (bs "security.capability") (i_xattr t') = Some (bs "c").
Proof. eexists. split; [vm_compute; reflexivity|]. repeat split; reflexivity. Qed.
Example link_case :
  exists t', copy_attribs true (fun _ _ => true) (fun _ => true) all_on (fun u => u) (fun g => g) (fun i _ => i) (fun i _ => i)
    (mk_attrs KSym 3 4 511 [(bs "trusted.a", bs "v")] [] [] 7) (mk_inode KSym 0 0 511 [] None [] 5 true) = Some t' /\
    i_uid t' = 3%Z /\ value (bs "trusted.a") (i_xattr t') = Some (bs "v").
Proof. eexists. split; [vm_compute; reflexivity|]. repeat split; reflexivity. Qed.
Example marker_case :
  exists t', copy_attribs_inc true (fun _ _ => true) (fun _ => true) (mk_config true true false false 4095) (fun i _ => i) (fun i _ => i)
    (mk_attrs KDir 3 4 1517 [] [] [] 7) (mk_inode KReg 0 0 384 [] None [] 5 true) = Some t' /\ i_mode t' = 493.
Proof. eexists. split; [vm_compute; reflexivity|]. repeat split; reflexivity. Qed.

Example increment_case :
  exists t', copy_attribs_inc true (fun _ _ => true) (fun _ => true) all_on (fun _ _ => None) (fun _ _ => None)
    (attrs_of (fun _ => None) (fun _ => None) rich) poor = Some t' /\
    i_mode t' = 2536 /\ i_acl t' = i_acl rich /\ i_uid t' = 1000%Z /\ i_mtime t' = 77%Z /\ value (bs "user.a") (i_xattr t') = Some (bs "v").
Proof. eexists. split; [vm_compute; reflexivity|]. repeat split; reflexivity. Qed.

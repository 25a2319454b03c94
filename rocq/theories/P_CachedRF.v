(** * Finding the data of files to restore (C46) and the permissions of the mirror (C37) *)
From Coq Require Import List ZArith Bool Ascii Lia Sorted.
From Verif Require Import Base L_Base M_Iter L_Iter M_CachedRF S_CachedRF L_CachedRF L_SubRfs L_PermChanger.
Import List ListNotations.
Local Open Scope Z_scope.

Lemma all_answered mirror incs js : in_order js ->
  (forall j, In j js -> has_data mirror incs j
      \/ (exists x, sibling j x /\ idx_lt j x /\ has_data mirror incs x)
      \/ (forall x, sibling j x -> ~ has_data mirror incs x)) -> Forall (answered (sub_rfs mirror incs)) js.
Proof.
  intros [HS HR] HD. apply Forall_forall. intros j Hj. assert (Nj : j <> []) by (intros ->; contradiction).
  destruct (HD j Hj) as [K|[(x & (d & a & b & Ea & Eb) & Hx & K)|K]].
  + right. exists j. split; [now apply sub_rfs_data|now left].
  + right. exists x. split; [|now right]. subst.
    pose proof (proj2 (sub_rfs_data mirror incs (d ++ [b]) ltac:(now destruct d)) K) as K2. rewrite removelast_snoc in *. exact K2.
  + left. destruct (sub_rfs mirror incs (removelast j)) as [|x l] eqn:E; [reflexivity|]. exfalso.
    assert (Hx : In x (sub_rfs mirror incs (removelast j))) by (rewrite E; now left).
    destruct (sub_rfs_shape _ _ _ _ Hx) as [Nx Ex]. apply (K x).
    * exists (removelast j), (last j []), (last x []). split; [now apply parent_split|]. rewrite <- Ex. now apply parent_split.
    * rewrite <- Ex in Hx. now apply sub_rfs_data.
Qed.

(** ** C46 *)
(** The files asked for come in order.  Each has data in the repository, or a file of the same
    directory which comes later has some, or nothing of the directory has any.  Then every file with
    data is found, and for the others the answer is that there is nothing. *)
Theorem C46_found mirror incs js : in_order js ->
  (forall j, In j js -> has_data mirror incs j
      \/ (exists x, sibling j x /\ idx_lt j x /\ has_data mirror incs x)
      \/ (forall x, sibling j x -> ~ has_data mirror incs x)) ->
  exists enough answers,
    (forall fuel, (enough <= fuel)%nat -> requests (sub_rfs mirror incs) fuel [] js = Some answers) /\
    Forall2 (fun j a => (fst a = Found <-> has_data mirror incs j) /\ (fst a = NotFound <-> ~ has_data mirror incs j)) js answers.
Proof.
  intros [HS HR] HD.
  destruct (requests_ok (sub_rfs mirror incs) (sub_rfs_sorted mirror incs) (sub_rfs_shape mirror incs) js []) as (N & rs & R1 & R2).
  - exact HS.
  - exact HR.
  - apply all_answered; [now split|exact HD].
  - intros j _. apply inv_nil.
  - exists N, rs. split; [exact R1|].
    assert (NJ : Forall (fun j => j <> []) js) by (apply Forall_forall; intros j Hj ->; contradiction).
    clear -R2 NJ. induction R2 as [|j a js rs (A1 & A2 & _) R2 IH]; [constructor|].
    inversion NJ as [|? ? N1 N2]; subst. constructor; [|now apply IH].
    rewrite <- (sub_rfs_data mirror incs j N1). now split.
Qed.

(** The condition is needed: when there is no data for the file, but for others of its directory, all
    of which come before it, the search never ends. *)
Theorem C46_hangs_refuted mirror incs j : j <> [] -> ~ has_data mirror incs j ->
  (exists x, sibling j x /\ has_data mirror incs x) ->
  (forall x, sibling j x -> has_data mirror incs x -> idx_lt x j) ->
  forall fuel, requests (sub_rfs mirror incs) fuel [] [j] = None.
Proof.
  intros Nj ND (x & (d & a & b & Ea & Eb) & Hx) HL fuel. cbn [requests].
  rewrite never_answered; [reflexivity|exact Nj| | |intros e []].
  - intros E. rewrite Ea, removelast_snoc in E. apply (proj2 (sub_rfs_data mirror incs x ltac:(rewrite Eb; now destruct d))) in Hx.
    rewrite Eb, removelast_snoc, E in Hx. destruct Hx.
  - intros y Hy. destruct (sub_rfs_shape _ _ _ _ Hy) as [Ny Ey]. apply HL.
    + exists (removelast j), (last j []), (last y []). split; [now apply parent_split|]. rewrite <- Ey. now apply parent_split.
    + rewrite <- Ey in Hy. now apply sub_rfs_data.
Qed.

(** ** C37, restoring *)
Fixpoint ways (L : idx) (cs : list idx) : Prop :=
  match cs with
  | [] => True
  | c :: r => (idx_lt L c /\ ways c r) \/ (prefix c L /\ ways L r)
  end.
Lemma ways_ok orig (HT : a_tree orig) : forall cs s L, pinv orig L (pc_open s) (pc_fs s) -> prefix (pc_current s) L -> ways L cs ->
  exists s' L', pc_calls s cs = Some s' /\ pinv orig L' (pc_open s') (pc_fs s') /\ (L' = L \/ In L' cs)
    /\ (forall c0 c, cs = c0 ++ [c] -> prefix c L').
Proof.
  induction cs as [|c cs IH]; intros s L H PC W.
  - exists s, L. split; [reflexivity|]. split; [exact H|]. split; [now left|]. intros c0 c E. destruct c0; discriminate.
  - assert (HC : idx_lt L c \/ prefix c L) by (cbn in W; tauto).
    destruct (call_ok orig HT s L c H PC HC) as (s1 & L1 & E1 & H1 & P1 & P2 & K1 & K2).
    assert (W1 : ways L1 cs /\ (L1 = L \/ L1 = c)).
    { destruct W as [[W1 W2]|[W1 W2]]; [rewrite (K1 W1) in *|rewrite (K2 W1) in *]; tauto. }
    destruct W1 as [W1 W2]. destruct (IH s1 L1 H1 P1 W1) as (s' & L' & E2 & H2 & M2 & LA).
    exists s', L'. cbn [pc_calls]. rewrite E1. split; [exact E2|]. split; [exact H2|]. split.
    + destruct M2 as [->|M2]; [|right; now right]. destruct W2 as [->| ->]; [now left|right; now left].
    + intros c0 c' E. destruct c0 as [|x c0].
      * injection E as <- ->. destruct M2 as [->|[]]. exact P2.
      * injection E as _ E. eapply LA. exact E.
Qed.
Lemma ways_prefix L a b : ways L (a ++ b) -> ways L a.
Proof. revert L; induction a as [|c a IH]; intros L H; [exact I|]. cbn in *. destruct H as [[H1 H2]|[H1 H2]]; [left|right]; (split; [exact H1|now apply IH]). Qed.

(** the calls of the requests *)
Lemma requests_ways subs js : forall rs L, StronglySorted idx_lt js -> ~ In [] js -> (forall j, In j js -> idx_lt L j) ->
  Forall2 (right_answer subs) js rs -> ways L (concat (map snd rs)).
Proof.
  induction js as [|j js IH]; intros rs L HS HR HL HF; inversion HF as [|j' [o calls] js' rs' RA HF']; subst; [exact I|].
  inversion HS as [|? ? S1 S2]; subst. destruct RA as (_ & _ & RA). cbn [map snd concat]. cbn [fst snd] in RA.
  assert (Nj : j <> []) by (intros ->; apply HR; now left).
  assert (Lj : idx_lt L j) by (apply HL; now left).
  assert (Pd : prefix (removelast j) j) by (exists [last j []]; now apply parent_split).
  assert (Dj : idx_lt (removelast j) j).
  { destruct (prefix_le _ _ Pd) as [E|E]; [|exact E]. exfalso. pose proof (removelast_length j Nj) as K. rewrite E in K. lia. }
  assert (NX : forall L', (L' = L \/ L' = j \/ L' = removelast j) -> ways L' (concat (map snd rs'))).
  { intros L' HL'. apply IH; [exact S1|intros K; apply HR; now right| |exact HF'].
    intros i Hi. rewrite Forall_forall in S2. specialize (S2 i Hi).
    destruct HL' as [->|[->| ->]]; [eapply idx_lt_trans; eassumption|exact S2|eapply idx_lt_trans; eassumption]. }
  assert (TAIL : forall L', (L' = L \/ L' = removelast j) -> ways L' ((match o with Found => [j] | _ => [] end) ++ concat (map snd rs'))).
  { intros L' HL'. assert (K : idx_lt L' j) by (destruct HL' as [->| ->]; assumption).
    destruct o; cbn [app]; [|apply NX; tauto|apply NX; tauto]. cbn [ways]. left. split; [exact K|]. apply NX. tauto. }
  destruct RA as [->| ->]; [apply TAIL; now left|].
  cbn [app ways]. destruct (idx_ltb L (removelast j)) eqn:E.
  - left. apply idx_ltb_lt in E. split; [exact E|]. apply TAIL. now right.
  - right. split; [|apply TAIL; now left].
    apply (prefix_between (removelast j) L j); [|exact Lj|exact Pd].
    destruct (idx_cmp (removelast j) L) eqn:C.
    + left. now apply (gc_eq _ idx_good).
    + right. exact C.
    + exfalso. apply not_true_iff_false in E. apply E, idx_ltb_lt. unfold idx_lt. rewrite (gc_opp _ idx_good), C. reflexivity.
Qed.

(** The mirror is a tree whose files belong to the process, [before] its permissions.  The files asked
    for come in order.  The paths worked on - directories listed, files read - are [worked]; however far
    the restoring got (after any part [done] of them), no permission change failed, the path worked on
    last and the directories on the way can be used, permissions differ from those before only on the way to
    one path worked on, and finishing gives every file its old permissions back. *)
Theorem C37_restore mirror incs js before : a_tree before -> in_order js ->
  (forall j, In j js -> has_data mirror incs j
      \/ (exists x, sibling j x /\ idx_lt j x /\ has_data mirror incs x)
      \/ (forall x, sibling j x -> ~ has_data mirror incs x)) ->
  exists enough answers, requests (sub_rfs mirror incs) enough [] js = Some answers /\
    (forall j a, In (j, a) (combine js answers) -> fst a = Found -> In j (snd a)) /\
    let worked := concat (map snd answers) in
    forall done rest, worked = done ++ rest ->
    exists s, pc_calls (mk_pc [] [] before) done = Some s /\
      (forall d0 c, done = d0 ++ [c] -> accessible (pc_fs s) c) /\
      (exists w, (w = [] \/ In w done) /\ forall j, ~ prefix j w -> pc_fs s j = before j) /\
      exists after, pc_finish (pc_open s) (pc_fs s) = Some after /\ forall j, after j = before j.
Proof.
  intros HT HO HD. pose proof (all_answered _ _ _ HO HD) as HA. destruct HO as [HS HR].
  destruct (requests_ok (sub_rfs mirror incs) (sub_rfs_sorted mirror incs) (sub_rfs_shape mirror incs) js [] HS HR HA) as (N & rs & R1 & R2);
    [intros j _; apply inv_nil|].
  exists N, rs. split; [now apply R1|]. split.
  { intros j [o calls] K E. cbn [fst snd] in *. subst o. clear -R2 K. induction R2 as [|j' a js rs RA R2 IH]; [destruct K|].
    destruct K as [K|K]; [|now apply IH]. injection K as -> ->. destruct RA as (_ & _ & [E|E]); cbn [fst snd] in E; rewrite E; cbn; tauto. }
  intros worked dn rest E.
  assert (W : ways [] dn).
  { apply (ways_prefix [] dn rest). rewrite <- E. apply (requests_ways (sub_rfs mirror incs) js); try assumption.
    intros j Hj. destruct j; [contradiction|reflexivity]. }
  destruct (ways_ok before HT dn (mk_pc [] [] before) [] (pinv_init before HT) (prefix_refl []) W) as (s & L & E1 & H1 & M1 & LA).
  exists s. split; [exact E1|]. split; [|split].
  - intros d0 c Ed q Pq. apply (pi_usable _ _ _ _ H1). eapply prefix_trans; [exact Pq|]. eapply LA. exact Ed.
  - exists L. split; [exact M1|]. intros j Nj. apply (pi_rest _ _ _ _ H1). intros K. apply in_map_iff in K.
    destruct K as ([o p] & <- & K). apply Nj. now apply (pi_open _ _ _ _ H1 o p).
  - eapply finish_ok; eassumption.
Qed.

(** ** Examples *)
(** a mirror with [a] (0500), [a/f] (no permissions), [b]; the increments of [c] *)
Definition ex_mirror (d : idx) : list bytes :=
  if idx_eqb d [] then [bs "b"; bs "a"; bs "rdiff-backup-data"] else if idx_eqb d [bs "a"] then [bs "f"] else [].
Definition ex_incs (d : idx) : list (bytes * bool) :=
  if idx_eqb d [] then [(bs "c.2020-01-01T00:00:00Z.snapshot.gz", false); (bs "a", true)] else [].
Definition ex_fs : mirror_fs := fun j =>
  if idx_eqb j [] then Some (PDir, 493) else if idx_eqb j [bs "a"] then Some (PDir, 128)
  else if idx_eqb j [bs "a"; bs "f"] then Some (PReg, 0) else if idx_eqb j [bs "b"] then Some (PReg, 420) else None.
Definition ex_js : list idx := [[bs "a"]; [bs "a"; bs "f"]; [bs "b"]; [bs "c"]].
Example C46_example : requests (sub_rfs ex_mirror ex_incs) 9 [] ex_js =
  Some [(Found, [[]; [bs "a"]]); (Found, [[bs "a"]; [bs "a"; bs "f"]]); (Found, [[bs "b"]]); (Found, [[bs "c"]])].
Proof. vm_compute. reflexivity. Qed.
Example C37_example : match pc_calls (mk_pc [] [] ex_fs) [[]; [bs "a"]; [bs "a"]; [bs "a"; bs "f"]] with
  | Some s => (pc_fs s [bs "a"], pc_fs s [bs "a"; bs "f"]) | None => (None, None) end = (Some (PDir, 448), Some (PReg, 256)).
Proof. vm_compute. reflexivity. Qed.
Example C37_example_tree : a_tree ex_fs.
Proof.
  split; [|split; [now exists 493|split; reflexivity]].
  intros d n H. unfold ex_fs in H.
  destruct (idx_eqb (d ++ [n]) []) eqn:E1; [apply idx_eqb_eq in E1; destruct d; discriminate|].
  destruct (idx_eqb (d ++ [n]) [bs "a"]) eqn:E2.
  { apply idx_eqb_eq in E2. change [bs "a"] with ([] ++ [bs "a"]) in E2. apply app_inj_tail in E2. destruct E2 as [-> _]. now exists 493. }
  destruct (idx_eqb (d ++ [n]) [bs "a"; bs "f"]) eqn:E3.
  { apply idx_eqb_eq in E3. change [bs "a"; bs "f"] with ([bs "a"] ++ [bs "f"]) in E3. apply app_inj_tail in E3. destruct E3 as [-> _]. now exists 128. }
  destruct (idx_eqb (d ++ [n]) [bs "b"]) eqn:E4; [|contradiction].
  apply idx_eqb_eq in E4. change [bs "b"] with ([] ++ [bs "b"]) in E4. apply app_inj_tail in E4. destruct E4 as [-> _]. now exists 493.
Qed.
Lemma ex_data x : has_data ex_mirror ex_incs x <-> In x [[bs "a"]; [bs "a"; bs "f"]; [bs "b"]; [bs "c"]].
Proof.
  split.
  - intros (d & n & -> & H). unfold ex_mirror, ex_incs in H. destruct (idx_eqb d []) eqn:E1.
    + apply idx_eqb_eq in E1. subst d. destruct H as [[H1 H2]|(nm & isd & H1 & H2)]; [|apply inc_key_spec in H2].
      * destruct H1 as [<-|[<-|[<-|[]]]]; [right; right; now left|now left|exfalso; now apply H2].
      * destruct H1 as [[= <- <-]|[[= <- <-]|[]]]; vm_compute in H2; injection H2 as <-; [do 3 right; now left|now left].
    + destruct H as [[H1 H2]|(nm & isd & [] & _)]. destruct (idx_eqb d [bs "a"]) eqn:E2; [|destruct H1].
      apply idx_eqb_eq in E2. subst d. destruct H1 as [<-|[]]. right. now left.
  - intros [<-|[<-|[<-|[<-|[]]]]].
    + exists [], (bs "a"). split; [reflexivity|]. left. split; [right; now left|discriminate].
    + exists [bs "a"], (bs "f"). split; [reflexivity|]. left. split; [now left|discriminate].
    + exists [], (bs "b"). split; [reflexivity|]. left. split; [now left|discriminate].
    + exists [], (bs "c"). split; [reflexivity|]. right. eexists _, _. split; [now left|]. apply inc_key_spec. vm_compute. reflexivity.
Qed.
Example C46_example_hypotheses : in_order ex_js /\ forall j, In j ex_js -> has_data ex_mirror ex_incs j.
Proof.
  split; [|intros j Hj; now apply ex_data]. split.
  - repeat constructor.
  - intros K. repeat destruct K as [K|K]; try discriminate. destruct K.
Qed.
(** the file [z] is in the metadata but its data is lost *)
Example C46_hangs_example : forall fuel, requests (sub_rfs ex_mirror ex_incs) fuel [] [[bs "z"]] = None.
Proof.
  apply C46_hangs_refuted; [discriminate| | |].
  - intros H. apply ex_data in H. repeat destruct H as [H|H]; try discriminate. destruct H.
  - exists [bs "b"]. split; [exists [], (bs "z"), (bs "b"); now split|]. apply ex_data. right; right; now left.
  - intros x _ H. apply ex_data in H. repeat destruct H as [<-|H]; try reflexivity. destruct H.
Qed.

Print Assumptions C46_found.
Print Assumptions C46_hangs_refuted.
Print Assumptions C37_restore.

(** * C55, C56: removal beside an interrupted session, forced regress *)
From Coq Require Import List ZArith Bool Ascii Lia.
From Verif Require Import Base M_Core P_Core M_Crash M_Iter P_Iter M_MetaMgr P_MetaMgr M_Global S_Global P_Global.
Import List ListNotations.
Local Open Scope Z_scope.

(** times of the increments of the root directory, as `remove --older-than` sees them *)
Definition root_times {attr} (r : @repo attr) : list Z := map fst (snd (r_path r [])).

(** ** C55 *)
(** While an interrupted session is waiting for regress, old increments may be removed, any
    number of times, up to the time of the last completed session: the interrupted session is
    still recognised (as long as any increment is left), the regress still always completes,
    however often it is interrupted, and afterwards each session which wasn't removed is
    restored exactly as before the interrupted session. *)
Theorem C55_removals_beside_interrupted_session :
  forall (attr : Type) delta patch sha1 (same loose : attr -> attr -> bool) deq,
  (forall x y, deq x y = true <-> x = y) ->
  forall evs r, grun delta patch sha1 same loose deq evs r ->
  forall t src o z zd kd kp rms rc, listing fst src ->
  gcrash delta sha1 same deq t src o z zd kd kp r = Some rc ->
  (forall rt b, In (rt, b) rms -> rt <= mirror_time (r_data r)) ->
  forall used att zl,
  fine delta patch sha1 same loose (evs ++ [GCrash t src o z zd kd kp rms used att zl]) ->
  (incs_used (r_data (gremoves rms rc)) = true -> needs_regress (r_data (gremoves rms rc)) false false = NRYes) /\
  (exists r', regresses patch sha1 loose used att zl (gremoves rms rc) r') /\
  forall r', regresses patch sha1 loose used att zl (gremoves rms rc) r' ->
    mirror_time (r_data r') = mirror_time (r_data r) /\ incs_used (r_data r') = used /\
    forall x q, In x (held evs) -> (forall rt b, In (rt, b) rms -> rt <= fst (fst x)) ->
      restore_tree patch (fst (fst x)) q r' = restore_tree patch (fst (fst x)) q r.
Proof.
  intros attr delta patch sha1 same loose deq Hdeq evs r HR t src o z zd kd kp rms rc Hsrc Ec Hrt used att zl HF.
  destruct (crash_undone attr delta patch sha1 same loose deq Hdeq evs r HR t src o z zd kd kp rms rc Hsrc Ec Hrt used att zl HF) as (A & B & C).
  split; [exact A|]. split; [exact B|]. intros r' Hr'. destruct (C r' Hr') as (C1 & C2 & C3). split; [exact C1|]. split; [exact C2|].
  intros x q Hx Hk. apply C3. rewrite held_snoc. cbn [held_step]. apply filter_In. split; [exact Hx|].
  apply forallb_forall. intros [rt b] Hb. apply Z.leb_le. exact (Hk rt b Hb).
Qed.

(** Such a removal is what the program does when the time given isn't later than the last
    completed session. *)
Theorem C55_time_given_decides :
  forall at_ force times rt t1, get_removal_time (Some at_) force times = RemBefore rt -> at_ <= t1 -> rt <= t1.
Proof.
  intros at_ force times rt t1 H Ha. unfold get_removal_time in H.
  destruct (filter (fun t => t <? at_) times) as [|y l] eqn:E; [discriminate|].
  destruct (_ && _); [discriminate|]. injection H as H. change (last (zsort (y :: l)) 0 + 1 = rt) in H. subst rt.
  assert (Hne : zsort (y :: l) <> []).
  { intros C. pose proof (zsort_perm (y :: l)) as HP. rewrite C in HP. apply Permutation.Permutation_sym, Permutation.Permutation_nil in HP. discriminate. }
  destruct (exists_last Hne) as (l' & x & Ex). rewrite Ex, last_last.
  assert (Hx : In x (y :: l)).
  { eapply Permutation.Permutation_in; [apply Permutation.Permutation_sym, zsort_perm|]. rewrite Ex. apply in_app_iff. right. now left. }
  rewrite <- E in Hx. apply filter_In in Hx as [_ Hx]. apply Z.ltb_lt in Hx. lia.
Qed.

(** With a later time the program destroys the last completed session: the session at 10 is the
    only completed one, the one at 20 was interrupted; `remove --older-than 15` (one increment,
    no --force needed) deletes the marker and the metadata of the session at 10; nothing
    reports the interruption any more, and neither time is restored. *)
Definition zcrash := gcrash sdelta idhash Z.eqb zmeq.
Definition rc2 := get_repo (zcrash 20 src2 ok_all pz nz 4 (fun _ => 9%nat) r1).
Theorem C55_later_time_refuted :
  exists r t src o z zd kd kp rc rt,
    grun sdelta spatch idhash Z.eqb Z.eqb zmeq [GSession 10 src1 ok_all nz] r /\
    gcrash sdelta idhash Z.eqb zmeq t src o z zd kd kp r = Some rc /\
    needs_regress (r_data rc) false false = NRYes /\ restore_tree spatch 10 [] r = Some src1 /\
    get_removal_time (Some 15) false (root_times rc) = RemBefore rt /\
    let r' := gremove rt true rc in
    needs_regress (r_data r') false false = NRNo /\ mirror_time (r_data r') = t /\
    restore_tree spatch 10 [] r' = None /\ restore_tree spatch t [] r' <> Some src.
Proof.
  exists r1, 20, src2, ok_all, pz, nz, 4%nat, (fun _ => 9%nat), rc2, 11.
  split.
  { apply (G_step _ _ _ _ _ _ [] gempty); [constructor|repeat constructor; apply listing_dec; vm_compute; tauto|]. apply get_repo_some. vm_compute. exact I. }
  split; [apply get_repo_some; vm_compute; exact I|].
  vm_compute. repeat split; discriminate.
Qed.

(** ** C56 *)
(** regress --force on a repository which needs no regress: with two sessions or more the last
    one is undone, however often the regress is interrupted; afterwards the mirror time is that
    of the session before, and each of the earlier sessions is restored exactly as before.
    With one session or none nothing is done. *)
Theorem C56_forced_regress_undoes_last_session :
  forall (attr : Type) delta patch sha1 (same loose : attr -> attr -> bool) deq,
  (forall x y, deq x y = true <-> x = y) ->
  forall evs r, grun delta patch sha1 same loose deq evs r ->
  forall used att zl, fine delta patch sha1 same loose (evs ++ [GForced used att zl]) ->
  forall older t0 src0 o0 t1 src1 o1, held evs = older ++ [(t0, src0, o0); (t1, src1, o1)] ->
  exists rc, gforce r = Some rc /\
    (exists r', regresses patch sha1 loose used att zl rc r') /\
    forall r', regresses patch sha1 loose used att zl rc r' ->
      mirror_time (r_data r') = t0 /\ incs_used (r_data r') = used /\
      forall x q, In x (older ++ [(t0, src0, o0)]) ->
        restore_tree patch (fst (fst x)) q r' = restore_tree patch (fst (fst x)) q r.
Proof.
  intros attr delta patch sha1 same loose deq Hdeq evs r HR used att zl HF older t0 src0 o0 t1 s1 o1 Hh.
  destruct (forced_undone attr delta patch sha1 same loose deq Hdeq evs r HR used att zl HF) as [_ Hf].
  destruct Hf as (rc & Ec & Hex & Hall); [rewrite Hh, app_length; cbn; lia|].
  exists rc. split; [exact Ec|]. split; [exact Hex|]. intros r' Hr'. destruct (Hall r' Hr') as (A & B & C).
  assert (Er : removelast (held evs) = older ++ [(t0, src0, o0)]).
  { rewrite Hh. replace (older ++ [(t0, src0, o0); (t1, s1, o1)]) with ((older ++ [(t0, src0, o0)]) ++ [(t1, s1, o1)]) by now rewrite <- app_assoc.
    apply removelast_last. }
  rewrite Er in A, C. rewrite map_app in A. cbn in A. rewrite last_last in A. auto.
Qed.

Theorem C56_single_session_kept :
  forall (attr : Type) delta patch sha1 (same loose : attr -> attr -> bool) deq,
  (forall x y, deq x y = true <-> x = y) ->
  forall evs r, grun delta patch sha1 same loose deq evs r ->
  forall used att zl, fine delta patch sha1 same loose (evs ++ [GForced used att zl]) ->
  (length (held evs) <= 1)%nat -> gforce r = None.
Proof.
  intros attr delta patch sha1 same loose deq Hdeq evs r HR used att zl HF.
  exact (proj1 (forced_undone attr delta patch sha1 same loose deq Hdeq evs r HR used att zl HF)).
Qed.

(** ** The hypotheses are met *)
Example ex_run2 : grun sdelta spatch idhash Z.eqb Z.eqb zmeq (firstn 2 ex_life) r2.
Proof.
  apply (G_step _ _ _ _ _ _ [GSession 10 src1 ok_all nz] r1).
  - apply (G_step _ _ _ _ _ _ [] gempty); [constructor|repeat constructor; apply listing_dec; vm_compute; tauto|]. apply get_repo_some. vm_compute. exact I.
  - repeat constructor; apply listing_dec; vm_compute; tauto.
  - apply get_repo_some. vm_compute. exact I.
Qed.

(** the session at 10 removed beside the interrupted one at 30 *)
Example ex_removal : 
  gcrash sdelta idhash Z.eqb zmeq 30 src3 ok_all pz nz 6 (fun _ => 2%nat) r2 = Some rc3 /\
  root_times rc3 = [10; 20] /\ mirror_time (r_data r2) = 20 /\
  get_removal_time (Some 20) false (root_times rc3) = RemBefore 11 /\
  needs_regress (r_data (gremoves [(11, true)] rc3)) false false = NRYes /\
  fine sdelta spatch idhash Z.eqb Z.eqb (firstn 2 ex_life ++ [GCrash 30 src3 ok_all pz nz 6 (fun _ => 2%nat) [(11, true)] true att3 pz]).
Proof.
  split; [apply get_repo_some; vm_compute; exact I|]. split; [vm_compute; reflexivity|]. split; [vm_compute; reflexivity|].
  split; [vm_compute; reflexivity|]. split; [vm_compute; reflexivity|].
  set (evs := firstn 2 ex_life ++ _).
  assert (Hv : forall p n, version evs p n -> version ex_life p n).
  { intros p n (e & n0 & He & Hb & Hn). cbn in He. destruct He as [He|[He|[He|[]]]]; subst e; destruct Hn as [->|[]].
    - eexists _, n0. split; [left; reflexivity|]. auto.
    - eexists _, n0. split; [right; left; reflexivity|]. auto.
    - eexists _, n0. split; [right; right; left; reflexivity|]. auto. }
  destruct ex_life_fine as [F1 F2 F3 F4 _ _ F5 F6].
  constructor.
  - intros p ? ? _ _. apply spatch_sdelta.
  - intros p a b x y h _ _ [= <-] [= <-]. reflexivity.
  - intros p c a c' a' H1 H2. apply (F3 p); auto.
  - intros p c a c' a' H1 H2. apply (F4 p); auto.
  - discriminate.
  - intros m0 fa tries t src o zd H. cbn in H. destruct H as [H|[H|[H|[]]]]; discriminate.
  - intros t src o p [[zd H]|(m0 & fa & tries & zd & H)]; cbn in H; destruct H as [H|[H|[H|[]]]]; try discriminate; injection H as <- <- <- <-; exact I.
  - intros (u & a & z & H). cbn in H. destruct H as [H|[H|[H|[]]]]; discriminate.
Qed.

Example ex_forced : exists rc, gforce r2 = Some rc /\ held (firstn 2 ex_life) = [] ++ [(10, src1, ok_all); (20, src2, ok_all)] /\
  markers (r_data rc) = [10; 20] /\ needs_regress (r_data rc) false false = NRYes /\ gforce r1 = None.
Proof. eexists. split; [apply (f_equal Some); reflexivity|]. vm_compute. auto. Qed.

Print Assumptions C55_removals_beside_interrupted_session.
Print Assumptions C55_time_given_decides.
Print Assumptions C55_later_time_refuted.
Print Assumptions C56_forced_regress_undoes_last_session.
Print Assumptions C56_single_session_kept.

(** * C72: a power failure loses nothing held *)
From Coq Require Import List NArith Bool Ascii Arith Lia.
From Verif Require Import Base M_Power S_Power L_Power L_Power2 L_Power3.
Import List ListNotations.

Lemma after_session safe now s items l k s' :
  before s items -> in_order s items -> listed s items l ->
  (forall p o n, In (p, o, n) (files_of items) -> told_apart now o n /\ (safe = true \/ ~ (regular o /\ regular n))) ->
  power_failure (run safe now s (firstn k (session true true items))) s' ->
  (forall p v, In (p, v) l -> recoverable (reach s' p) v (files s' p)) /\ allwf s'.
Proof.
  intros B O (ND & L1 & L2) TA PF. split.
  - intros p v Hin. destruct (L2 p v Hin) as [(n & Hn)|(NI & Hh)].
    + destruct (TA p v n Hn) as [T S0]. eapply session_file; eassumption.
    + apply holds_recoverable. eapply session_other; eassumption.
  - intros q. apply on_disk_wf. now apply (before_lost safe now s items k s').
Qed.

(** Whenever the power fails during a session, and whatever of what wasn't forced to the
    disk is lost: either the repository is as before the session and says so, or it says
    that the session is incomplete and going back restores what was before; or it
    says that the session is complete, and it is. *)
Theorem C72_power_failure_during_backup safe now s items l k s' :
  before s items -> in_order s items -> listed s items l ->
  (forall p o n, In (p, o, n) (files_of items) -> told_apart now o n /\ (safe = true \/ ~ (regular o /\ regular n))) ->
  power_failure (run safe now s (firstn k (session true true items))) s' ->
  (cur (old_marker s') = true /\ cur (new_marker s') = false /\ forall p v, In (p, v) l -> holds v (files s' p)) \/
  (cur (old_marker s') = true /\ cur (new_marker s') = true /\
   let e := run safe now s' (regress safe now true true s' l) in
   cur (old_marker e) = true /\ cur (new_marker e) = false /\ forall p v, In (p, v) l -> holds v (files e p)) \/
  (cur (old_marker s') = false /\ cur (new_marker s') = true /\
   (forall p o n, In (p, o, n) (files_of items) -> holds n (files s' p)) /\
   (forall p v, In (p, v) l -> ~ In p (map item_path items) -> holds v (files s' p))).
Proof.
  intros B O Li TA PF. destruct (after_session _ _ _ _ _ _ _ B O Li TA PF) as [R W].
  destruct (before_lost safe now s items k s' B PF) as (OD & C1 & C2). destruct Li as (ND & L1 & L2).
  assert (BACK : cur (old_marker s') = true -> cur (new_marker s') = true ->
    let e := run safe now s' (regress safe now true true s' l) in
    cur (old_marker e) = true /\ cur (new_marker e) = false /\ forall p v, In (p, v) l -> holds v (files e p)).
  { intros E1 E2 e. destruct (regress_done_markers safe now l s' C1 C2) as [M1 M2]. split; [unfold e; congruence|]. split; [exact M2|]. intros p v Hin. now apply regress_done. }
  destruct (session_markers safe now s items k s' B PF) as [(Hk & M)|[(M1 & M2)|(F & M)]].
  - destruct (cur (new_marker s')) eqn:E; [right; left; auto|]. left. split; [exact M|]. split; [reflexivity|]. intros p v Hin.
    assert (H0 : holds v (files s p)).
    { destruct (L2 p v Hin) as [(n & Hn)|(_ & Hh)]; [|exact Hh]. destruct B as (_ & _ & _ & _ & _ & X & _). now apply (X p v n). }
    assert (EF : files (run safe now s (firstn k (session true true items))) = files s) by (destruct k as [|[|k]]; [reflexivity|reflexivity|lia]).
    destruct PF as (_ & _ & L). specialize (L p). rewrite EF in L. destruct B as (_ & _ & _ & _ & X & _). unfold holds. rewrite (plost_view _ _ _ (X p) L). exact H0.
  - right. left. auto.
  - destruct (cur (old_marker s')) eqn:E; [right; left; auto|]. right. right. split; [reflexivity|]. split; [exact M|]. rewrite F in PF. split.
    + intros p o n Hin. eapply session_done; eauto. now apply (TA p o n Hin).
    + intros p v Hin NI. destruct (L2 p v Hin) as [(n & Hn)|(_ & Hh)].
      * exfalso. apply NI. apply in_map_iff. exists (File p v n). split; [reflexivity|]. now apply files_in.
      * apply (session_other safe now s items p v (length (session true true items)) s' B NI Hh). rewrite firstn_all. exact PF.
Qed.

(** Going back may itself be interrupted, any number of times. *)
Theorem C72_power_failures_while_going_back safe now s items l k s' s'' :
  before s items -> in_order s items -> listed s items l ->
  (forall p o n, In (p, o, n) (files_of items) -> told_apart now o n /\ (safe = true \/ ~ (regular o /\ regular n)) /\ (regular o -> regular n)) ->
  power_failure (run safe now s (firstn k (session true true items))) s' ->
  cur (old_marker s') = true -> cur (new_marker s') = true ->
  interrupted safe now l s' s'' ->
  cur (old_marker s'') = true /\
  ((cur (new_marker s'') = false /\ forall p v, In (p, v) l -> holds v (files s'' p)) \/
   (cur (new_marker s'') = true /\
    let e := run safe now s'' (regress safe now true true s'' l) in
    cur (old_marker e) = true /\ cur (new_marker e) = false /\ forall p v, In (p, v) l -> holds v (files e p))).
Proof.
  intros B O Li TA PF M1 M2 INT.
  assert (TA' : forall p o n, In (p, o, n) (files_of items) -> told_apart now o n /\ (safe = true \/ ~ (regular o /\ regular n))) by (intros p o n H; destruct (TA p o n H) as (X & Y & _); auto).
  destruct (after_session _ _ _ _ _ _ _ B O Li TA' PF) as [R W]. destruct (before_lost safe now s items k s' B PF) as (OD & C1 & C2).
  assert (G : going_back l s').
  { split; [exact OD|]. split; [exact C1|]. split; [exact C2|]. split; [exact M1|]. split; [|congruence]. intros p v Hin. split; [now apply R|]. intros Rv.
    destruct (proj2 (proj2 Li) p v Hin) as [(n & Hn)|(NI & Hh)].
    - destruct (TA p v n Hn) as (T & S0 & RN). eapply session_file; eauto.
    - eapply holds_regular; [|exact Rv]. eapply session_other; eassumption. }
  destruct (going_back_always safe now l s' s'' (proj1 Li) INT G) as (OD2 & D1 & D2 & N1 & R2 & H2).
  split; [exact N1|]. destruct (cur (new_marker s'')) eqn:E; [right|left; auto]. split; [reflexivity|]. intros e.
  destruct (regress_done_markers safe now l s'' D1 D2) as [X1 X2]. split; [unfold e; congruence|]. split; [exact X2|].
  intros p v Hin. apply regress_done; auto; [apply Li|intros q; apply on_disk_wf, OD2|intros q w Hq; now apply R2].
Qed.

(** ** What can be found after a power failure *)
Definition kept (f : pstate) : pstate := settle_all f.
Definition garbled (i : nat) (c : content) (f : pstate) : pstate :=
  mk_p (ent (kept f)) (fun j => if j =? i then settle (mk_cell c (fun _ => True)) else dat (kept f) j) (att (kept f)) (nxt f).
Definition forgotten (n : name) (v : option nat) (f : pstate) : pstate :=
  mk_p (fun m => if name_eqb m n then settle (mk_cell v (fun _ => True)) else ent (kept f) m) (dat (kept f)) (att (kept f)) (nxt f).
Definition crashed (o n : bool) (g : path -> pstate -> pstate) (s : st) : st :=
  mk_st (settle (mk_cell o (fun _ => True))) (settle (mk_cell n (fun _ => True))) (fun q => g q (files s q)).
Lemma lost_settle {A} (c : cell A) v : poss c v -> lost c (settle (mk_cell v (fun _ => True))).
Proof. intros H. split; [exact H|]. intros x. reflexivity. Qed.
Lemma plost_kept f : wf f -> plost f (kept f).
Proof. intros (W1 & W2 & W3 & _). repeat split; cbn; auto; intros; try apply W1; try apply W2; try apply W3. Qed.
Lemma plost_garbled i c f : wf f -> poss (dat f i) c -> plost f (garbled i c f).
Proof.
  intros W H. destruct (plost_kept f W) as (K1 & K2 & K3 & _). split; [exact K1|]. split; [|split; [exact K3|reflexivity]].
  intros j. cbn -[Nat.eqb]. destruct (Nat.eqb_spec j i) as [->|]; [now apply lost_settle|apply K2].
Qed.
Lemma plost_forgotten n v f : wf f -> poss (ent f n) v -> plost f (forgotten n v f).
Proof.
  intros W H. destruct (plost_kept f W) as (K1 & K2 & K3 & _). split; [|split; [exact K2|split; [exact K3|reflexivity]]].
  intros m. cbn. destruct (name_eqb m n) eqn:E; [|apply K1]. destruct m, n; try discriminate E; now apply lost_settle.
Qed.
Lemma power_failure_crashed s o n g : poss (old_marker s) o -> poss (new_marker s) n -> (forall q, plost (files s q) (g q (files s q))) -> power_failure s (crashed o n g s).
Proof. intros H1 H2 H3. split; [now apply lost_settle|]. split; [now apply lost_settle|]. exact H3. Qed.

(** ** A disk *)
Definition cert {A} (v : A) : cell A := mk_cell v (fun x => x = v).
Definition nothing : pstate := mk_p (fun _ => cert None) (fun _ => cert Mark) (fun _ => cert 0%N) 0.
Definition a_file (c : content) (a : N) : pstate :=
  mk_p (fun n => cert (match n with NMirror => Some 0 | _ => None end)) (fun _ => cert c) (fun _ => cert a) 1.
Definition a_dir : pstate := mk_p (fun n => cert (match n with NIncDir => Some 0 | _ => None end)) (fun _ => cert Mark) (fun _ => cert 0%N) 1.
Definition disk (l : list (path * pstate)) : st :=
  mk_st (cert true) (cert false) (fun q => fold_right (fun x r => if path_eqb q (fst x) then snd x else r) nothing l).
Lemma on_disk_ex f : In f [nothing; a_dir] \/ (exists c a, f = a_file c a) -> on_disk f.
Proof.
  assert (C : forall A (v : A), certain (cert v)) by (intros A v x; reflexivity).
  intros [[<-|[<-|[]]]|(c & a & ->)]; (split; [|split; [|split]]); try (intros x; apply C); intros n i; destruct n; cbn; intros [= <-]; lia.
Qed.
Lemma on_disk_disk l : Forall on_disk (map snd l) -> forall p, on_disk (files (disk l) p).
Proof.
  intros H p. cbn. induction l as [|[q f] l IH]; cbn; [apply on_disk_ex; left; now left|]. inversion H; subst. destruct (path_eqb p q); auto.
Qed.
Ltac on_disks := apply on_disk_disk; cbn [map snd]; repeat (apply Forall_cons; [apply on_disk_ex; first [left; left; reflexivity|left; right; left; reflexivity|right; repeat eexists]|]); apply Forall_nil.

(** two files: one changed, one replaced by a symbolic link, one new; one isn't changed *)
Definition ex_disk : st := disk [([], a_dir); ([bs "a"], a_file (Reg (bs "old")) 1); ([bs "b"], a_file (Reg (bs "data")) 2); ([bs "d"], nothing);
  ([bs "z"], a_file (Reg (bs "same")) 3)].
Definition ex_items : list item :=
  [Directory [] true; File [bs "a"] (VReg (bs "old") 1) (VReg (bs "new") 5); File [bs "b"] (VReg (bs "data") 2) (VOther 7 6);
   Directory [bs "d"] false; File [bs "d"; bs "n"] VNone (VReg (bs "n") 8)].
Definition ex_list : list (path * version) :=
  [([bs "a"], VReg (bs "old") 1); ([bs "b"], VReg (bs "data") 2); ([bs "d"; bs "n"], VNone); ([bs "z"], VReg (bs "same") 3)].
Example C72_hypotheses : before ex_disk ex_items /\ in_order ex_disk ex_items /\ listed ex_disk ex_items ex_list /\
  forall p o n, In (p, o, n) (files_of ex_items) -> told_apart 100 o n.
Proof.
  split; [|split; [|split]].
  - split; [reflexivity|]. split; [reflexivity|]. split; [intros x; reflexivity|]. split; [intros x; reflexivity|]. split; [on_disks|]. split.
    + intros p o n H. cbn in H. repeat (destruct H as [[= <- <- <-]|H]; [reflexivity|]). contradiction.
    + intros p h H ->. cbn in H. intuition (try discriminate). injection H as <-. discriminate.
  - split; [cbn; repeat constructor; cbn; intuition discriminate|].
    intros l1 p o n l2 E q Hq. assert (Hf : In (File p o n) ex_items) by (rewrite E; apply in_elt).
    assert (Hq' : q = [] \/ (q = [bs "d"] /\ p = [bs "d"; bs "n"])).
    { cbn in Hf. repeat (destruct Hf as [Hf|Hf]; [try discriminate Hf; injection Hf as <- <- <-; cbn in Hq; intuition auto|]). contradiction. }
    destruct Hq' as [->|[-> ->]]; [left; discriminate|right]. exists false.
    do 3 (destruct l1 as [|? l1]; [discriminate E|injection E as <- E]). destruct l1 as [|? l1]; [discriminate E|]. injection E as <- E. cbn. tauto.
  - split; [cbn; repeat constructor; cbn; intuition discriminate|]. split.
    + intros p o n H. cbn in H. repeat (destruct H as [[= <- <- <-]|H]; [cbn; tauto|]). contradiction.
    + intros p v H. cbn in H. destruct H as [[= <- <-]|[[= <- <-]|[[= <- <-]|[[= <- <-]|[]]]]].
      * left. eexists. cbn. left. reflexivity.
      * left. eexists. cbn. right. left. reflexivity.
      * left. eexists. cbn. right. right. left. reflexivity.
      * right. split; [cbn; intuition discriminate|reflexivity].
  - intros p o n H. cbn in H. repeat (destruct H as [[= <- <- <-]|H]; [repeat split; cbn; try discriminate; intros (? & ? & X); discriminate X|]). contradiction.
Qed.


(** ** Where it isn't so *)
Definition d0 : st := disk [([], a_dir); ([bs "a"], a_file (Reg (bs "old")) 1)].
Definition at_path (p : path) (g : pstate -> pstate) : path -> pstate -> pstate := fun q f => if path_eqb q p then g f else kept f.
Lemma plost_at safe now s l p g : allwf s -> plost (files (run safe now s l) p) (g (files (run safe now s l) p)) ->
  forall q, plost (files (run safe now s l) q) (at_path p g q (files (run safe now s l) q)).
Proof.
  intros W H q. unfold at_path. destruct (path_eqb q p) eqn:E; [apply path_eqb_eq in E; subst q; exact H|]. apply plost_kept. now apply allwf_run.
Qed.
Lemma allwf_d0 : allwf d0.
Proof. intros q. apply on_disk_wf. revert q. on_disks. Qed.
Lemma allwf_crashed s l safe now o n g : allwf s -> (forall q, plost (files (run safe now s l) q) (g q (files (run safe now s l) q))) -> allwf (crashed o n g (run safe now s l)).
Proof. intros W H q. apply on_disk_wf. eapply plost_on_disk; [|apply H]. now apply allwf_run. Qed.

Definition change_items : list item := [File [bs "a"] (VReg (bs "old") 1) (VReg (bs "new") 5)].
Definition the_list : list (path * version) := [([bs "a"], VReg (bs "old") 1)].
Lemma change_ok (i : item) n : (i = File [bs "a"] (VReg (bs "old") 1) n) -> n <> VReg (bs "old") 1 -> attr_of n <> 100%N -> (regular n -> attr_of n <> 1%N) ->
  before d0 [i] /\ in_order d0 [i] /\ listed d0 [i] the_list /\ (forall p o m, In (p, o, m) (files_of [i]) -> told_apart 100 o m).
Proof.
  intros -> H1 H2 H3. split; [|split; [|split]].
  - split; [reflexivity|]. split; [reflexivity|]. split; [intros x; reflexivity|]. split; [intros x; reflexivity|]. split; [on_disks|]. split.
    + intros p o m H. cbn in H. destruct H as [[= <- <- <-]|[]]. reflexivity.
    + intros p h H ->. cbn in H. intuition (try discriminate).
  - split; [cbn; repeat constructor; cbn; tauto|]. intros l1 p o m l2 E q Hq. assert (Hf : In (File p o m) [File [bs "a"] (VReg (bs "old") 1) n]) by (rewrite E; apply in_elt).
    destruct Hf as [[= <- <- <-]|[]]. cbn in Hq. destruct Hq as [<-|[]]. left. discriminate.
  - split; [cbn; repeat constructor; cbn; tauto|]. split.
    + intros p o m H. cbn in H. destruct H as [[= <- <- <-]|[]]. cbn. tauto.
    + intros p v H. cbn in H. destruct H as [[= <- <-]|[]]. left. exists n. cbn. tauto.
  - intros p o m H. cbn in H. destruct H as [[= <- <- <-]|[]]. split; [intros X; apply H1; rewrite <- X; reflexivity|]. cbn. split; [discriminate|]. split; [exact H2|]. intros _ Rn. apply not_eq_sym. auto.
Qed.

(** the new file is renamed over the old one without being forced to the disk: where
    renaming doesn't force it, both may be lost *)
Theorem C72_renamed_before_written_refuted : exists s items l k s',
  before s items /\ in_order s items /\ listed s items l /\ (forall p o n, In (p, o, n) (files_of items) -> told_apart 100 o n) /\
  power_failure (run false 100 s (firstn k (session true true items))) s' /\
  cur (old_marker s') = true /\ cur (new_marker s') = true /\
  exists p v, In (p, v) l /\ ~ holds v (files (run false 100 s' (regress false 100 true true s' l)) p).
Proof.
  exists d0, change_items, the_list, 8, (crashed true true (at_path [bs "a"] (garbled 1 (Reg []))) (run false 100 d0 (firstn 8 (session true true change_items)))).
  destruct (change_ok _ (VReg (bs "new") 5) eq_refl) as (X1 & X2 & X3 & X4); [discriminate|discriminate|discriminate|].
  split; [exact X1|]. split; [exact X2|]. split; [exact X3|]. split; [exact X4|]. split; [|split; [reflexivity|split; [reflexivity|]]].
  - apply power_failure_crashed; [vm_compute; auto|vm_compute; auto|]. apply plost_at; [apply allwf_d0|]. apply plost_garbled; [apply allwf_run, allwf_d0|]. vm_compute. auto.
  - exists [bs "a"], (VReg (bs "old") 1). split; [now left|]. intros H. vm_compute in H. discriminate H.
Qed.

(** going back to a regular file where there is none, or something else: the file is written
    in place and isn't forced to the disk before the increment is deleted *)
Theorem C72_restored_in_place_refuted : exists s items l k s' s'',
  before s items /\ in_order s items /\ listed s items l /\ (forall p o n, In (p, o, n) (files_of items) -> told_apart 100 o n) /\
  power_failure (run true 100 s (firstn k (session true true items))) s' /\
  cur (old_marker s') = true /\ cur (new_marker s') = true /\ interrupted true 100 l s' s'' /\ cur (new_marker s'') = true /\
  exists p v, In (p, v) l /\ ~ holds v (files (run true 100 s'' (regress true 100 true true s'' l)) p).
Proof.
  set (items := [File [bs "a"] (VReg (bs "old") 1) VNone]).
  set (s1 := crashed true true (at_path [bs "a"] kept) (run true 100 d0 (firstn 6 (session true true items)))).
  exists d0, items, the_list, 6, s1, (crashed true true (at_path [bs "a"] (garbled 2 (Reg []))) (run true 100 s1 (firstn 4 (regress true 100 true true s1 the_list)))).
  destruct (change_ok _ VNone eq_refl) as (X1 & X2 & X3 & X4); [discriminate|discriminate|intros (? & ? & X); discriminate X|].
  assert (P1 : forall q, plost (files (run true 100 d0 (firstn 6 (session true true items))) q) (at_path [bs "a"] kept q (files (run true 100 d0 (firstn 6 (session true true items))) q))).
  { apply plost_at; [apply allwf_d0|]. apply plost_kept, allwf_run, allwf_d0. }
  assert (W1 : allwf s1) by (apply allwf_crashed; [apply allwf_d0|exact P1]).
  split; [exact X1|]. split; [exact X2|]. split; [exact X3|]. split; [exact X4|]. split; [|split; [reflexivity|split; [reflexivity|split; [|split; [reflexivity|]]]]].
  - apply power_failure_crashed; [vm_compute; auto|vm_compute; auto|exact P1].
  - apply again with (k := 4) (s1 := crashed true true (at_path [bs "a"] (garbled 2 (Reg []))) (run true 100 s1 (firstn 4 (regress true 100 true true s1 the_list)))); [reflexivity| |constructor].
    apply power_failure_crashed; [vm_compute; auto|vm_compute; auto|]. apply plost_at; [exact W1|]. apply plost_garbled; [apply allwf_run, W1|]. vm_compute. auto.
  - exists [bs "a"], (VReg (bs "old") 1). split; [now left|]. intros H. vm_compute in H. discriminate H.
Qed.

(** a directory replaced by something else: its new directory of increments isn't forced
    to the disk, so the increments in it may be lost *)
Definition d1 : st := disk [([], a_dir); ([bs "d"], nothing); ([bs "d"; bs "a"], a_file (Reg (bs "old")) 1)].
Definition gone_items : list item := [Directory [] true; DirGone [bs "d"] false; File [bs "d"; bs "a"] (VReg (bs "old") 1) VNone].
Definition gone_list : list (path * version) := [([bs "d"; bs "a"], VReg (bs "old") 1)].
Theorem C72_directory_replaced_refuted : exists s items l k s',
  before s items /\ listed s items l /\ (forall p o n, In (p, o, n) (files_of items) -> told_apart 100 o n) /\
  (forall l1 p o n l2, items = l1 ++ File p o n :: l2 -> forall q, In q (ancestors p) -> In q (map item_path l1)) /\
  power_failure (run true 100 s (firstn k (session true true items))) s' /\
  cur (old_marker s') = true /\ cur (new_marker s') = true /\
  exists p v, In (p, v) l /\ ~ holds v (files (run true 100 s' (regress true 100 true true s' l)) p).
Proof.
  exists d1, gone_items, gone_list, 11, (crashed true true (at_path [bs "d"] (forgotten NIncDir None)) (run true 100 d1 (firstn 11 (session true true gone_items)))).
  assert (OD : forall q, on_disk (files d1 q)) by on_disks.
  split; [|split; [|split; [|split; [|split; [|split; [reflexivity|split; [reflexivity|]]]]]]].
  - split; [reflexivity|]. split; [reflexivity|]. split; [intros x; reflexivity|]. split; [intros x; reflexivity|]. split; [exact OD|]. split.
    + intros p o m H. cbn in H. destruct H as [[= <- <- <-]|[]]. reflexivity.
    + intros p h H ->. cbn in H. destruct H as [[H|[H|[H|[]]]]|[H|[H|[H|[]]]]]; try discriminate H. injection H as <-. discriminate.
  - split; [cbn; repeat constructor; cbn; tauto|]. split.
    + intros p o m H. cbn in H. destruct H as [[= <- <- <-]|[]]. cbn. tauto.
    + intros p v H. cbn in H. destruct H as [[= <- <-]|[]]. left. exists VNone. cbn. tauto.
  - intros p o m H. cbn in H. destruct H as [[= <- <- <-]|[]]. repeat split; cbn; try discriminate.
  - intros l1 p o n l2 E q Hq. do 2 (destruct l1 as [|? l1]; [discriminate E|injection E as <- E]). destruct l1 as [|? l1]; [|injection E as _ E; destruct l1; discriminate E].
    injection E as <- <- <- <-. cbn in Hq |- *. intuition auto.
  - apply power_failure_crashed; [vm_compute; auto|vm_compute; auto|]. assert (W1 : allwf d1) by (intros q; apply on_disk_wf, OD). apply plost_at; [exact W1|]. apply plost_forgotten; [apply allwf_run, W1|]. vm_compute. auto.
  - exists [bs "d"; bs "a"], (VReg (bs "old") 1). split; [now left|]. intros H. vm_compute in H. discriminate H.
Qed.

(** --no-fsync: a session can be complete, with data lost *)
Theorem C72_no_fsync_refuted : exists s items l s',
  before s items /\ in_order s items /\ listed s items l /\ (forall p o n, In (p, o, n) (files_of items) -> told_apart 100 o n) /\
  power_failure (run false 100 s (session false true items)) s' /\
  cur (old_marker s') = false /\ cur (new_marker s') = true /\
  exists p o n, In (p, o, n) (files_of items) /\ ~ holds o (files s' p) /\ ~ holds n (files s' p).
Proof.
  exists d0, change_items, the_list, (crashed false true (at_path [bs "a"] (garbled 1 (Reg []))) (run false 100 d0 (session false true change_items))).
  destruct (change_ok _ (VReg (bs "new") 5) eq_refl) as (X1 & X2 & X3 & X4); [discriminate|discriminate|discriminate|].
  split; [exact X1|]. split; [exact X2|]. split; [exact X3|]. split; [exact X4|]. split; [|split; [reflexivity|split; [reflexivity|]]].
  - apply power_failure_crashed; [vm_compute; auto|vm_compute; auto|]. apply plost_at; [apply allwf_d0|]. apply plost_garbled; [apply allwf_run, allwf_d0|]. vm_compute. auto.
  - exists [bs "a"], (VReg (bs "old") 1), (VReg (bs "new") 5). split; [now left|]. split; intros H; vm_compute in H; discriminate H.
Qed.

Definition forces (o : op) : bool := match o with Fsync _ _ | FsyncDir _ | Sync => true | _ => false end.
Theorem C72_no_fsync_forces_nothing fsync_dirs safe now s items l :
  forallb (fun o => negb (forces o)) (session false fsync_dirs items) = true /\
  forallb (fun o => negb (forces o)) (regress safe now false fsync_dirs s l) = true.
Proof.
  assert (F : forall i, forallb (fun o => negb (forces o)) (item_ops false fsync_dirs i) = true).
  { intros [p o n|p h|p h]; cbn; [|unfold dir_ops; destruct h; reflexivity|unfold dir_ops; destruct h; reflexivity].
    unfold file_ops. destruct (unchanged o n); [destruct n; reflexivity|]. destruct o, n; reflexivity. }
  assert (G : forall r f p v, forallb (fun o => negb (forces o)) (regress_one false fsync_dirs r f p v) = true).
  { intros r f p v. unfold regress_one. cbv zeta. rewrite forallb_app. apply andb_true_iff. split; [|destruct (if r then view f NInc else None); reflexivity].
    destruct v as [|b a|k a]; destruct (view f NMirror) as [[[d|d|d1 d2| |kk] a']|]; try reflexivity.
    - destruct (a' =? a)%N; [reflexivity|]. destruct (beq d b); reflexivity.
    - destruct ((kk =? k)%N && (a' =? a)%N); reflexivity. }
  split.
  - unfold session. cbn. rewrite forallb_app. cbn. rewrite andb_true_r. induction items as [|i items IH]; [reflexivity|]. cbn. rewrite forallb_app, F. exact IH.
  - unfold regress. cbn. rewrite forallb_app. cbn. rewrite andb_true_r. revert s. induction l as [|[p v] l IH]; intros s; [reflexivity|]. cbn [regress_files]. rewrite forallb_app. unfold regress_path at 1. rewrite G. apply IH.
Qed.

(** directories which can't be forced to the disk: nothing may say that a session was
    begun, though files have changed *)
Theorem C72_no_directory_fsync_refuted : exists s items l k s',
  before s items /\ in_order s items /\ listed s items l /\ (forall p o n, In (p, o, n) (files_of items) -> told_apart 100 o n) /\
  power_failure (run true 100 s (firstn k (session true false items))) s' /\
  cur (old_marker s') = true /\ cur (new_marker s') = false /\
  exists p v, In (p, v) l /\ ~ holds v (files s' p).
Proof.
  exists d0, change_items, the_list, 6, (crashed true false (at_path [bs "a"] kept) (run true 100 d0 (firstn 6 (session true false change_items)))).
  destruct (change_ok _ (VReg (bs "new") 5) eq_refl) as (X1 & X2 & X3 & X4); [discriminate|discriminate|discriminate|].
  split; [exact X1|]. split; [exact X2|]. split; [exact X3|]. split; [exact X4|]. split; [|split; [reflexivity|split; [reflexivity|]]].
  - apply power_failure_crashed; [vm_compute; auto|vm_compute; auto|]. apply plost_at; [apply allwf_d0|]. apply plost_kept. apply allwf_run, allwf_d0.
  - exists [bs "a"], (VReg (bs "old") 1). split; [now left|]. intros H. vm_compute in H. discriminate H.
Qed.

(** the removal of the older marker isn't forced to the disk: a session which was completed
    may be undone (nothing is lost by it) *)
Theorem C72_completed_session_undone : exists s items l s',
  before s items /\ in_order s items /\ listed s items l /\ (forall p o n, In (p, o, n) (files_of items) -> told_apart 100 o n) /\
  power_failure (run true 100 s (session true true items)) s' /\
  cur (old_marker s') = true /\ cur (new_marker s') = true /\
  forall p v, In (p, v) l -> holds v (files (run true 100 s' (regress true 100 true true s' l)) p).
Proof.
  exists d0, change_items, the_list, (crashed true true (at_path [bs "a"] kept) (run true 100 d0 (session true true change_items))).
  destruct (change_ok _ (VReg (bs "new") 5) eq_refl) as (X1 & X2 & X3 & X4); [discriminate|discriminate|discriminate|].
  split; [exact X1|]. split; [exact X2|]. split; [exact X3|]. split; [exact X4|]. split; [|split; [reflexivity|split; [reflexivity|]]].
  - apply power_failure_crashed; [vm_compute; auto|vm_compute; auto|]. apply plost_at; [apply allwf_d0|]. apply plost_kept. apply allwf_run, allwf_d0.
  - intros p v [[= <- <-]|[]]. vm_compute. reflexivity.
Qed.

Print Assumptions C72_power_failure_during_backup.
Print Assumptions C72_power_failures_while_going_back.
Print Assumptions C72_renamed_before_written_refuted.
Print Assumptions C72_restored_in_place_refuted.
Print Assumptions C72_directory_replaced_refuted.
Print Assumptions C72_no_fsync_refuted.
Print Assumptions C72_no_fsync_forces_nothing.
Print Assumptions C72_no_directory_fsync_refuted.
Print Assumptions C72_completed_session_undone.

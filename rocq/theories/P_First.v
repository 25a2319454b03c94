(** * C63: an interrupted first backup is simply repeated *)
From Coq Require Import List ZArith Bool Ascii Lia Sorting.Permutation Sorting.Sorted.
From Verif Require Import Base L_Base M_Core L_Core P_Core M_Crash L_Crash M_Iter L_Iter L_Tree L_Lookup P_Iter
  M_MetaMgr L_MetaMgr L_MetaDir P_MetaMgr M_Global S_Global L_Global L_First P_Global.
Import List ListNotations.
Local Open Scope Z_scope.

(** However often the first backup into a directory is interrupted, and wherever, and
    whatever the source was each time: calling it again is accepted and completes. *)
Theorem C63_first_session_accepted_again :
  forall (attr : Type) delta sha1 (same : attr -> attr -> bool) deq m0 fa tries rc,
  first_crashes delta sha1 same deq fa tries (plain_dir m0) rc ->
  forall t src o zd, 0 < t ->
  exists found r', scan_of rc found /\ gfirst delta sha1 same deq fa found t src o zd rc = Some r'.
Proof.
  intros attr delta sha1 same deq m0 fa tries rc Hc t src o zd Ht.
  destruct (first_crashes_ok delta sha1 same deq fa tries _ rc (plain_dir_plain m0) Hc) as [Hp _].
  apply first_accepted; auto. eapply first_crashes_finite; [apply plain_dir_plain|apply plain_dir_finite|exact Hc].
Qed.
Print Assumptions C63_first_session_accepted_again.

(** The repository then holds this session only, and restores it: of every path whose
    update worked what the source had, nothing where the source had nothing, whatever
    the interrupted attempts or somebody else left in the directory.  The mirror is a
    copy of the source, too, and there are no increments. *)
Theorem C63_first_session_after_interruptions :
  forall (attr : Type) delta patch sha1 (same loose : attr -> attr -> bool) deq,
  (forall x y, deq x y = true <-> x = y) ->
  forall m0 fa tries rc found t src o zd r',
  let e := GFirst m0 fa tries t src o zd in
  fine delta patch sha1 same loose [e] -> well_formed e ->
  first_crashes delta sha1 same deq fa tries (plain_dir m0) rc -> scan_of rc found ->
  gfirst delta sha1 same deq fa found t src o zd rc = Some r' ->
  markers (r_data r') = [t] /\
  (exists l, restore_tree patch t [] r' = Some l /\ listing fst l /\ (forall x, In x l -> snd x <> Absent) /\
     forall p, updated (o p) -> same_state same (node_at src p) (node_at l p)) /\
  (forall p, snd (r_path r' p) = []) /\
  forall p, updated (o p) ->
    match node_at src p with
    | Reg c _ => exists a, fst (r_path r' p) = Reg c a
    | Absent => fst (r_path r' p) = Absent
    | Dir _ => exists a, fst (r_path r' p) = Dir a
    | Spec d _ => exists a, fst (r_path r' p) = Spec d a
    end.
Proof.
  intros attr delta patch sha1 same loose deq Hdeq m0 fa tries rc found t src o zd r' e HF Hw Hc Hs Hf.
  assert (HR : grun delta patch sha1 same loose deq [e] r').
  { apply (G_step _ _ _ _ _ _ [] gempty); [constructor|exact Hw|]. split; [reflexivity|]. split; [reflexivity|].
    exists rc, found. auto. }
  assert (Hin : forall x, In x [e] -> In x [e]) by auto.
  pose proof (run_ginv delta patch sha1 same loose deq Hdeq [e] HF [e] r' HR Hin) as [HD HP].
  cbn [grecs fold_left grec_step e] in HD, HP.
  set (F := firstf sha1 same fa (fun p => tried delta sha1 same fa tries p (node_at m0 p)) src o) in *.
  split; [|split; [|split]].
  - destruct (dinv_last sha1 deq Hdeq _ _ _ _ HD) as (? & ? & ? & _ & _ & Hm & _). exact Hm.
  - eapply (C44_every_held_session_restored attr delta patch sha1 same loose deq Hdeq [e] r' HR HF). now left.
  - intros p. destruct (first_crashes_ok delta sha1 same deq fa tries _ rc (plain_dir_plain m0) Hc) as [[Hd Hi] _].
    unfold gfirst in Hf. rewrite Hd in Hf. destruct (backup_start _ _ _ _) as [[?|]| |]; try discriminate.
    destruct (session_dops _ _ _ _ _ _) as [ops|]; [|discriminate]. injection Hf as <-. cbn [r_path].
    destruct (update_incs delta sha1 same None (node_at src p) (o p)
      (found_ps (find_md p (found_listing sha1 fa found rc)) (rc.(r_path) p))) as [E|[i E]]; rewrite E; exact (Hi p).
  - intros p Hu. pose proof (held_recs delta patch sha1 same loose [e] HF [e] Hin) as H2.
    cbn [held fold_left held_step grecs grec_step e rev app] in H2. inversion H2 as [|? ? ? ? [_ Hx] _]; subst.
    specialize (Hx p Hu). cbn [fst snd] in Hx. fold F in Hx.
    destruct (HP p) as (l & _ & HI & Hst & _ & _). pose proof (inv_holds _ _ _ _ _ HI) as Hh. cbn in Hh, Hst.
    destruct (node_at src p) as [|c a|a|d a], (F p) as [|c' b|b|d' b]; cbn in Hx, Hh; try (destruct Hx; fail); try discriminate; auto.
    + destruct Hx as [-> _]. exact Hh.
    + destruct Hx as [-> _]. destruct Hh as [Hh|[b' Hh]]; [exact Hh|]. rewrite Hh in Hst. discriminate.
Qed.
Print Assumptions C63_first_session_after_interruptions.

(** But a file which such a session finds in the mirror, looking like the one of the
    source, is recorded without a hash: there is nothing against which its content
    could be verified later. *)
Theorem C63_found_file_has_no_hash :
  forall (attr : Type) delta patch sha1 (same loose : attr -> attr -> bool) deq,
  (forall x y, deq x y = true <-> x = y) ->
  forall m0 fa tries rc found t src o zd r',
  let e := GFirst m0 fa tries t src o zd in
  fine delta patch sha1 same loose [e] -> well_formed e ->
  first_crashes delta sha1 same deq fa tries (plain_dir m0) rc -> scan_of rc found ->
  gfirst delta sha1 same deq fa found t src o zd rc = Some r' ->
  forall p c a c' b, node_at src p = Reg c a -> fst (r_path rc p) = Reg c' b ->
    length c = length c' -> same a (fa b) = true ->
  exists l, meta_at_time t [] (mfiles (r_data r')) = RdOk l /\
    In (p, Some (MReg (length c') None (fa b))) l.
Proof.
  intros attr delta patch sha1 same loose deq Hdeq m0 fa tries rc found t src o zd r' e HF Hw Hc Hs Hf p c a c' b Hsrc Hm El Hsa.
  assert (HR : grun delta patch sha1 same loose deq [e] r').
  { apply (G_step _ _ _ _ _ _ [] gempty); [constructor|exact Hw|]. split; [reflexivity|]. split; [reflexivity|].
    exists rc, found. auto. }
  assert (Hin : forall x, In x [e] -> In x [e]) by auto.
  pose proof (run_ginv delta patch sha1 same loose deq Hdeq [e] HF [e] r' HR Hin) as [HD _].
  cbn [grecs fold_left grec_step e] in HD.
  destruct (first_crashes_ok delta sha1 same deq fa tries _ rc (plain_dir_plain m0) Hc) as [_ Hmr]. cbn in Hmr.
  destruct (dinv_last sha1 deq Hdeq _ _ _ _ HD) as (h & h0 & l0 & _ & _ & _ & _ & _ & Hl0 & Hmt & Hmd).
  exists (recs_of l0). split; [exact Hmt|]. specialize (Hmd p). unfold firstf in Hmd. rewrite <- Hmr, Hm, Hsrc in Hmd.
  unfold recorded in Hmd. cbn in Hmd. rewrite El, Nat.eqb_refl, Hsa in Hmd. cbn in Hmd.
  assert (Hv : find_md p (recs_of l0) = Some (MReg (length c') None (fa b))).
  { rewrite Hmd. destruct (f_found _ _ _ _ _ _ HF m0 fa tries t src o zd (or_introl eq_refl) b) as [_ Hn].
    destruct (o p); cbn; now rewrite Hn. }
  unfold find_md in Hv. destruct (find _ _) as [x|] eqn:E; [|discriminate]. apply find_some in E as [Hi E].
  apply idx_eqb_eq in E. destruct x as [q m]. cbn in E, Hv. now subst.
Qed.
Print Assumptions C63_found_file_has_no_hash.

(** ** The hypotheses are met *)
(** attributes with a mark: read from the file system, hash unknown *)
Definition mattr : Type := (Z * bool)%type.
Definition msha (a : mattr) (c : bytes) : option bytes := if snd a then None else Some c.
Definition mfound (a : mattr) : mattr := (fst a, true).
Definition meqb (a b : mattr) : bool := fst a =? fst b.
Definition mmeq (x y : meta mattr) : bool :=
  match x, y with
  | MReg n h (a, u), MReg m g (b, v) =>
      Nat.eqb n m && match h, g with Some h, Some g => beq_bytes h g | None, None => true | _, _ => false end &&
      (a =? b) && Bool.eqb u v
  | MDir (a, u), MDir (b, v) => (a =? b) && Bool.eqb u v
  | MSpec d (a, u), MSpec e (b, v) => beq_bytes d e && (a =? b) && Bool.eqb u v
  | _, _ => false
  end.
Lemma beq_refl x : beq_bytes x x = true.
Proof. unfold beq_bytes. now destruct (list_eq_dec ascii_dec x x). Qed.
Lemma mmeq_ok : forall x y, mmeq x y = true <-> x = y.
Proof.
  intros x y. split.
  - destruct x as [n h [a u]|[a u]|d [a u]], y as [m g [b v]|[b v]|e [b v]]; cbn; try discriminate; rewrite ?andb_true_iff.
    + intros [[[A B] C] D]. apply Nat.eqb_eq in A. apply Z.eqb_eq in C. apply Bool.eqb_prop in D. subst.
      destruct h, g; try discriminate; [apply beq_true in B; now subst|reflexivity].
    + intros [A B]. apply Z.eqb_eq in A. apply Bool.eqb_prop in B. now subst.
    + intros [[A B] C]. apply beq_true in A. apply Z.eqb_eq in B. apply Bool.eqb_prop in C. now subst.
  - intros <-. destruct x as [n h [a u]|[a u]|d [a u]]; cbn; rewrite ?Nat.eqb_refl, ?Z.eqb_refl, ?Bool.eqb_reflx, ?beq_refl; try reflexivity.
    destruct h; rewrite ?beq_refl; reflexivity.
Qed.

Definition fsrc : @tree mattr :=
  [([], Dir (1, false)); ([bs "a"], Reg (bs "one") (1, false)); ([bs "b"], Reg (bs "two") (1, false));
   ([bs "p"], Spec (bs "fifo") (1, false))].
Definition fold0 : @tree mattr := [([], Dir (0, false)); ([bs "b"], Dir (0, false)); ([bs "old"], Reg (bs "junk") (0, false))].
Definition fz : idx -> noise mattr := fun _ => mk_noise [] [(7, false)] (8, false) [].
Definition fnz : @dnoise (meta mattr) := mk_dn [[]] [] 1 false max_diff_chain.
(** interrupted after the file a was written *)
Definition ftry : @try mattr := mk_try 10 fsrc (fun _ => OOk) fz fnz 2 (fun p => match p with [x] => if beq_bytes x (bs "a") then 9%nat else 1%nat | _ => 0%nat end).
Definition ffound0 : list idx := [[]; [bs "b"]; [bs "old"]].
Definition fget (x : option (@repo mattr)) : @repo mattr := match x with Some r => r | None => gempty end.
Definition frc : @repo mattr := fget (first_crash sdelta msha meqb mmeq mfound ffound0 ftry (plain_dir fold0)).
Definition ffound1 : list idx := [[]; [bs "a"]; [bs "p"]].
Definition fr : @repo mattr := fget (gfirst sdelta msha meqb mmeq mfound ffound1 20 fsrc (fun _ => OOk) fnz frc).

Lemma scan_dec (r : @repo mattr) found L : (forall p, fst (r_path r p) <> Absent -> In p L) ->
  StronglySorted idx_lt found ->
  (forall p, In p L -> fst (r_path r p) <> Absent -> In p found) -> (forall p, In p found -> fst (r_path r p) <> Absent) ->
  scan_of r found.
Proof. intros H1 H2 H3 H4. split; [exact H2|]. intros p. split; auto. Qed.

Example first_runs :
  first_crashes sdelta msha meqb mmeq mfound [ftry] (plain_dir fold0) frc /\ scan_of frc ffound1 /\
  gfirst sdelta msha meqb mmeq mfound ffound1 20 fsrc (fun _ => OOk) fnz frc = Some fr /\
  markers (r_data frc) = [] /\ mfiles (r_data frc) = [mk_mf 10 KSnap []] /\
  restore_tree spatch 20 [] fr =
    Some [([], Dir (1, false)); ([bs "a"], Reg (bs "one") (1, true)); ([bs "b"], Reg (bs "two") (1, false)); ([bs "p"], Spec (bs "fifo") (1, true))] /\
  meta_at_time 20 [bs "a"] (mfiles (r_data fr)) = RdOk [([bs "a"], Some (MReg 3 None (1, true)))].
Proof.
  assert (H0 : scan_of (plain_dir fold0) ffound0).
  { apply scan_dec with (L := map fst fold0).
    - intros p. cbn. apply node_at_in.
    - repeat constructor.
    - intros p. cbn. tauto.
    - intros p Hp. cbn in Hp. repeat (destruct Hp as [<-|Hp]); try destruct Hp; vm_compute; discriminate. }
  assert (Ec : first_crash sdelta msha meqb mmeq mfound ffound0 ftry (plain_dir fold0) = Some frc).
  { unfold frc, fget. assert (K : first_crash sdelta msha meqb mmeq mfound ffound0 ftry (plain_dir fold0) <> None) by (vm_compute; discriminate).
    now destruct (first_crash _ _ _ _ _ _ _ _). }
  split; [exists ffound0, frc; split; [exact H0|split; [exact Ec|reflexivity]]|].
  split.
  { destruct (first_crash_ok sdelta msha meqb mmeq mfound _ _ _ _ (plain_dir_plain fold0) H0 Ec) as [_ E].
    apply scan_dec with (L := map fst fold0 ++ map fst fsrc).
    - intros p Hn. apply in_app_iff. rewrite E in Hn. destruct (node_at fold0 p) eqn:E0.
      + right. destruct (node_at fsrc p) eqn:E1; [|apply node_at_in; rewrite E1; discriminate..].
        cbn [plain_dir r_path fst] in Hn. rewrite E0 in Hn. rewrite step_absent in Hn by exact E1. congruence.
      + left. apply node_at_in. rewrite E0. discriminate.
      + left. apply node_at_in. rewrite E0. discriminate.
      + left. apply node_at_in. rewrite E0. discriminate.
    - repeat constructor.
    - intros p Hp Hn. cbn in Hp. repeat (destruct Hp as [<-|Hp]); try destruct Hp; cbn; try tauto; exfalso; apply Hn; vm_compute; reflexivity.
    - intros p Hp. cbn in Hp. repeat (destruct Hp as [<-|Hp]); try destruct Hp; vm_compute; discriminate. }
  split.
  { unfold fr, fget. assert (K : gfirst sdelta msha meqb mmeq mfound ffound1 20 fsrc (fun _ => OOk) fnz frc <> None) by (vm_compute; discriminate).
    now destruct (gfirst _ _ _ _ _ _ _ _ _ _ _). }
  repeat split; vm_compute; reflexivity.
Qed.

Example first_fine :
  let e := GFirst fold0 mfound [ftry] 20 fsrc (fun _ => OOk) fnz in
  fine sdelta spatch msha meqb meqb [e] /\ well_formed e.
Proof.
  intros e.
  assert (L : forall l : @tree mattr, sorted_by fst l -> listing fst l) by (intros l; apply listing_sorted).
  split.
  2: { repeat constructor; apply L; repeat constructor. }
  assert (Hv : forall p c a, version [e] p (Reg c a) -> exists k, (a = (k, false) \/ a = (k, true)) /\
     ((k = 1 /\ node_at fsrc p = Reg c (1, false)) \/ (k = 0 /\ node_at fold0 p = Reg c (0, false)))).
  { intros p c a (e0 & n0 & He & (s & Hs & <-) & Hn). cbn in He. destruct He as [<-|[]].
    assert (Ha : forall (s : @tree mattr) k, (forall x, In x s -> match snd x with Reg _ a => a = (k, false) | _ => True end) ->
       match node_at s p with Reg _ a => a = (k, false) | _ => True end).
    { intros s' k H. unfold node_at. destruct (find _ s') as [x|] eqn:E; [|exact I]. apply find_some in E as [E _]. exact (H x E). }
    assert (Hk : exists k, s = (if k =? 1 then fsrc else fold0) /\ (k = 1 \/ k = 0) /\
       match node_at s p with Reg _ a => a = (k, false) | _ => True end).
    { cbn in Hs. destruct Hs as [<-|[<-|[<-|[]]]]; [exists 0|exists 1|exists 1]; (split; [reflexivity|]);
        (split; [auto|]); apply Ha; cbn; intros x Hx; repeat (destruct Hx as [<-|Hx]); try destruct Hx; cbn; auto. }
    destruct Hk as (k & Es & Hk & Hat). exists k. destruct (node_at s p) as [|c0 a0| |] eqn:En.
    - destruct Hn as [Hn|Hn]; [discriminate|]. cbn in Hn. discriminate.
    - subst a0. assert (E : c = c0 /\ (a = (k, false) \/ a = (k, true))).
      { destruct Hn as [Hn|Hn]; [injection Hn as -> ->; auto|]. cbn in Hn. injection Hn as -> ->. auto. }
      destruct E as [-> E]. split; [exact E|]. destruct Hk as [-> | ->]; cbn in Es; subst s; auto.
    - destruct Hn as [Hn|Hn]; [discriminate|]. cbn in Hn. discriminate.
    - destruct Hn as [Hn|Hn]; [discriminate|]. cbn in Hn. discriminate. }
  assert (Hd : differences_show meqb [e]).
  { intros p c a c' a' H1 H2 _ E. unfold meqb in E. apply Z.eqb_eq in E.
    destruct (Hv _ _ _ H1) as (k & K1 & K2), (Hv _ _ _ H2) as (k' & K1' & K2').
    assert (k = k') by (destruct K1, K1'; subst; exact E). subst k'.
    destruct K2 as [[A B]|[A B]], K2' as [[A' B']|[A' B']]; try lia; congruence. }
  constructor; auto.
  - intros p ? ? _ _. apply spatch_sdelta.
  - intros p a b x y h _ _. unfold msha. destruct (snd a), (snd b); try discriminate. intros [= <-] [= <-]. reflexivity.
  - intros a c _. apply Z.eqb_refl.
  - intros m0 fa tries t src o zd [H|[]] a. injection H as <- <- <- <- <- <- <-. split; [apply Z.eqb_refl|reflexivity].
  - intros t src o p [[zd [H|[]]]|(m0 & fa & tries & zd & [H|[]])]; [discriminate|]. injection H as <- <- <- <- <- <- <-. exact I.
  - intros (u & a & z & [H|[]]). discriminate.
Qed.

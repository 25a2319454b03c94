(** * C49: a backup by an ordinary user copes with directories it may not change *)
From Coq Require Import List ZArith Bool Ascii Lia Sorted.
From Verif Require Import Base L_Base M_Iter L_Iter L_Tree M_TreeFs L_TreeFs M_DirPatch S_DirPatch L_DirPatch M_RepoPatch S_RepoPatch
  L_RepoPatch M_DirPerms S_DirPerms L_DirPerms P_Iter P_DirPatch P_RepoPatch.
Import List ListNotations.
Local Open Scope Z_scope.

(** Whatever permissions the directories of mirror and source have, the session works to its end, and leaves
    every directory with the permissions of the source, those which it had to open included; only directories which are newly
    without full permissions for their owner keep these in addition.  *)
Theorem C49_session_whatever_the_permissions :
  forall (root : bool) (now : idx -> Z) (increments : bool) (cached : idx -> bool) (same : node -> node -> bool)
         (made : idx -> option node -> option (option node)) (source mirror : list entry) (t : tree),
    (forall m n, same m n = true -> is_dir (Some m) = is_dir (Some n)) ->
    (forall a b, same (NDir a) (NDir b) = true -> a_perms a = a_perms b) ->
    listing fst source -> a_tree source ->
    listing fst mirror -> a_tree mirror ->
    a_tree (files t) -> (forall i, get i (temps t) = None) ->
    as_listed root mirror (files t) ->
    (forall i, unlisted (files t) mirror i -> get i source = None) ->
    (forall d c, unlisted (files t) mirror (d ++ [c]) -> get d mirror <> None -> is_dir (get d source) = true) ->
    (forall i r, made i None = Some r -> r = None) ->
    (forall i n r, made i (Some n) = Some r -> exists d a, r = Some (NOther d a)) ->
    (forall d c, get (d ++ [c]) mirror <> None -> made (d ++ [c]) None = None -> is_dir (get d source) = true) ->
    exists flags t',
      dp_session root now increments cached made same source mirror t = Some (flags, t')
      /\ (forall i, get i (files t') = mirror_closed root same made source mirror (files t) i)
      /\ (forall i, get i (temps t') = None).
Proof.
  intros root now increments cached same made source mirror t Hsame Hperms H1 T1 H2 T2 T0 Ht Hl Hh Hk Hg Hf Hfail.
  destruct (dp_session_spec root now increments cached same made source mirror t) as (t1 & t' & E & _ & _ & F & T & _ & _); try assumption;
    try now apply listing_sorted.
  eexists. exists t'. split; [exact E|]. split; [exact F|exact T].
Qed.
Print Assumptions C49_session_whatever_the_permissions.

Lemma session_step_p root same hidden s t (meta : list entry) :
  (forall m n, same m n = true -> m = n) -> (forall d c, hidden (d ++ [c]) = true -> d = [] \/ hidden d = true) ->
  (forall d c, hidden d = true -> hidden (d ++ [c]) = true) ->
  sound_session true hidden s ->
  listing fst meta -> a_tree meta -> a_tree (files t) -> describes_opened root hidden t meta ->
  exists t' meta', run_session_p root same s (t, meta) = Some (t', meta')
    /\ listing fst meta' /\ a_tree meta' /\ a_tree (files t') /\ describes_opened root hidden t' meta'
    /\ (forall i, hidden i = true -> get i (files t') = get i (files t))
    /\ (forall i, get i meta' = if differs same (s_source s) meta i then
           match get i (s_source s) with
           | Some (NDir a) => Some (NDir a)
           | n => match s_made s i n with Some r => r | None => get i meta end
           end else get i meta)
    /\ (forall i, get i (files t') = mirror_closed root same (s_made s) (s_source s) meta (files t) i).
Proof.
  intros Hsame Hhid Hhid2 (H1 & T1 & R1 & U1 & _ & G1 & F1 & D1) H2 T2 T0 (A1 & A2 & A3).
  assert (Su : forall i, unlisted (files t) meta i -> hidden i = true).
  { intros i (X & Y). destruct (hidden i) eqn:Z; [reflexivity|]. destruct (A1 i Z) as [W|W]; rewrite W, Y in X; contradiction. }
  assert (Hd : forall m n, same m n = true -> is_dir (Some m) = is_dir (Some n)) by (intros m n S; now rewrite (Hsame m n S)).
  assert (Hp : forall a b, same (NDir a) (NDir b) = true -> a_perms a = a_perms b) by (intros a b S; apply Hsame in S; congruence).
  assert (Hl : as_listed root meta (files t)).
  { intros i n G. destruct (hidden i) eqn:Z; [rewrite (A2 i Z) in G; discriminate|]. destruct (A1 i Z) as [W|W]; rewrite W, G; auto. }
  assert (Hh : forall i, unlisted (files t) meta i -> get i (s_source s) = None) by (intros i X; now apply U1, Su).
  assert (Hk : forall d c, unlisted (files t) meta (d ++ [c]) -> get d meta <> None -> is_dir (get d (s_source s)) = true).
  { intros d c X Y. apply Su in X. apply Hhid in X as [->|X]; [assumption|]. now rewrite A2 in Y. }
  assert (Hf : forall i n r, s_made s i (Some n) = Some r -> exists d a, r = Some (NOther d a)).
  { intros i n r M. destruct (F1 _ _ _ M) as (D & ->). destruct n as [a|d a]; [discriminate|eauto]. }
  assert (Hff : forall d c, get (d ++ [c]) meta <> None -> s_made s (d ++ [c]) None = None -> is_dir (get d (s_source s)) = true).
  { intros d c _. apply D1. }
  assert (S1 : sorted_by fst (s_source s)) by now apply listing_sorted.
  assert (S2 : sorted_by fst meta) by now apply listing_sorted.
  assert (HF : forall i n r, s_made s i (Some n) = Some r -> r = Some n) by (intros i n r M; now apply F1 in M).
  destruct (dp_session_spec root (s_now s) (s_increments s) (fun _ => true) same (s_made s) (s_source s) meta t) as (t1 & t' & E & L1 & L2 & F & T & Tt1 & Tt); try assumption.
  set (flags := pre_flags _ _ _ _ _) in E.
  assert (Hh1 : forall i, unlisted (files t1) meta i -> get i (s_source s) = None).
  { intros i (X & Y). apply Hh. split; [|assumption]. now rewrite <- (L2 i Y). }
  assert (Rec : forall i, recorded (s_source s) meta flags i = if differs same (s_source s) meta i then
           match get i (s_source s) with
           | Some (NDir a) => Some (NDir a)
           | n => match s_made s i n with Some r => r | None => get i meta end
           end else get i meta).
  { intros i. apply (recorded_val root (s_now s) (s_increments s) (fun _ => true) same (s_made s) (s_source s) meta t1); try assumption; auto. }
  assert (Met : forall i, get i (new_metadata (s_source s) meta flags) = recorded (s_source s) meta flags i).
  { intros i. rewrite new_metadata_get by assumption. destruct (get i (s_source s)) as [m|] eqn:X1; [reflexivity|].
    destruct (get i meta) as [n|] eqn:X2; [reflexivity|]. rewrite Rec. unfold differs. now rewrite X1, X2. }
  assert (Hid : forall i, hidden i = true -> get i (files t') = get i (files t)).
  { intros i Z. rewrite F. unfold mirror_closed, differs. now rewrite (U1 i Z), (A2 i Z). }
  exists t', (new_metadata (s_source s) meta flags). unfold run_session_p. rewrite E. split; [reflexivity|].
  split; [apply listing_sorted; now apply new_metadata_sorted|].
  assert (Desc : describes_opened root hidden t' (new_metadata (s_source s) meta flags)).
  { split; [|split; [|assumption]]; intros i Z; rewrite Met, Rec.
    - rewrite F. unfold mirror_closed. destruct (differs same (s_source s) meta i) eqn:Df.
      + destruct (get i (s_source s)) as [[a|? ?]|]; [|now left|now left]. destruct (was_closed root meta i); [now left|now right].
      + left. destruct (get i meta) as [n|] eqn:G; [reflexivity|]. destruct (A1 i Z) as [W|W]; rewrite W, G; reflexivity.
    - unfold differs. rewrite (U1 i Z), (A2 i Z). reflexivity. }
  split; [|split; [assumption|split; [assumption|split; [assumption|split; [intros i; now rewrite Met, Rec|assumption]]]]].
  intros d c n G. destruct Desc as (B1 & B2 & _). destruct (hidden (d ++ [c])) eqn:Z; [rewrite (B2 _ Z) in G; discriminate|].
  assert (X : get (d ++ [c]) (files t') <> None) by (destruct (B1 _ Z) as [W|W]; rewrite W, G; discriminate).
  destruct (get (d ++ [c]) (files t')) as [m|] eqn:Gm; [|congruence]. apply Tt in Gm as (a & Ga).
  destruct (hidden d) eqn:Zd; [apply Hhid2 with (c := c) in Zd; congruence|].
  destruct (B1 _ Zd) as [W|W]; rewrite Ga in W; destruct (get d (new_metadata (s_source s) meta flags)) as [[b|? ?]|]; try discriminate; eauto.
Qed.

(** Through any number of sessions by any user: each works to its end, and the metadata always describe the mirror, up to
    the permissions to use a directory; nothing in the data directory is touched. *)
Theorem C49_every_history :
  forall (root : bool) (same : node -> node -> bool) (data : bytes) (sessions : list session) (t : tree) (meta : list entry),
    (forall m n, same m n = true -> m = n) ->
    Forall (sound_session true (in_data data)) sessions ->       (* [true]: whatever the permissions are *)
    listing fst meta -> a_tree meta -> a_tree (files t) -> describes_opened root (in_data data) t meta ->
    exists t' meta', run_sessions_p root same sessions (t, meta) = Some (t', meta')
      /\ describes_opened root (in_data data) t' meta'
      /\ (forall i, in_data data i = true -> get i (files t') = get i (files t)).
Proof.
  intros root same data sessions t meta Hsame Hs. revert t meta. induction Hs as [|s l Hs _ IH]; intros t meta H T T0 D; cbn [run_sessions_p].
  - exists t, meta. split; [reflexivity|]. split; [assumption|]. reflexivity.
  - destruct (session_step_p root same (in_data data) s t meta) as (t1 & m1 & E & H1 & T1 & T2 & D1 & K & _); try assumption.
    + intros [|x d] c X; [now left|]. right. exact X.
    + intros [|x d] c X; [discriminate|]. exact X.
    + rewrite E. destruct (IH t1 m1) as (t' & meta' & E' & D' & K'); try assumption.
      exists t', meta'. split; [assumption|]. split; [assumption|]. intros i Z. rewrite (K' i Z). now apply K.
Qed.
Print Assumptions C49_every_history.

(** Two sessions without failures from the same source: then the mirror is exactly the source, whatever it was before. *)
Theorem C49_second_session_exact :
  forall (root : bool) (same : node -> node -> bool) (data : bytes) (s1 s2 : session) (t : tree) (meta : list entry),
    (forall m n, same m n = true <-> m = n) ->
    sound_session true (in_data data) s1 -> sound_session true (in_data data) s2 ->
    s_source s2 = s_source s1 ->
    (forall i n, is_dir n = false -> s_made s1 i n <> None) ->
    listing fst meta -> a_tree meta -> a_tree (files t) -> describes_opened root (in_data data) t meta ->
    exists t' meta', run_sessions_p root same [s1; s2] (t, meta) = Some (t', meta')
      /\ forall i, in_data data i = false -> get i (files t') = get i (s_source s1) /\ get i meta' = get i (s_source s1).
Proof.
  intros root same data s1 s2 t meta Hsame Hs1 Hs2 Es Hm H T T0 D.
  assert (Hsame' : forall m n, same m n = true -> m = n) by (intros m n; apply Hsame).
  assert (Hd1 : forall d c, in_data data (d ++ [c]) = true -> d = [] \/ in_data data d = true).
  { intros [|x d] c X; [now left|]. right. exact X. }
  assert (Hd2 : forall d c, in_data data d = true -> in_data data (d ++ [c]) = true).
  { intros [|x d] c X; [discriminate|]. exact X. }
  destruct (session_step_p root same (in_data data) s1 t meta) as (t1 & m1 & E1 & H1 & T1 & T1' & D1 & K1 & M1 & F1); try assumption.
  destruct (session_step_p root same (in_data data) s2 t1 m1) as (t2 & m2 & E2 & H2 & T2 & T2' & D2 & K2 & M2 & F2); try assumption.
  exists t2, m2. cbn [run_sessions_p]. rewrite E1, E2. split; [reflexivity|].
  destruct Hs1 as (_ & _ & _ & _ & _ & G & F & _).
  assert (Q : forall i, in_data data i = false -> get i m1 = get i (s_source s1)).
  { intros i Z. rewrite M1. destruct (differs same (s_source s1) meta i) eqn:Df.
    - destruct (get i (s_source s1)) as [[a|d a]|]; [reflexivity| |].
      + destruct (s_made s1 i (Some (NOther d a))) as [r|] eqn:X; [now apply F in X|]. now apply Hm in X.
      + destruct (s_made s1 i None) as [r|] eqn:X; [now apply G in X|]. now apply Hm in X.
    - unfold differs in Df. destruct (get i (s_source s1)) as [m|], (get i meta) as [n|]; try discriminate; [|reflexivity].
      apply negb_false_iff in Df. apply Hsame in Df. congruence. }
  intros i Z. assert (Df : differs same (s_source s2) m1 i = false).
  { unfold differs. rewrite Es, (Q i Z). destruct (get i (s_source s1)) as [m|]; [|reflexivity]. apply negb_false_iff. now apply Hsame. }
  rewrite F2, M2. unfold mirror_closed. rewrite Df. rewrite (Q i Z). split; [|reflexivity].
  destruct (get i (s_source s1)) as [m|] eqn:G1; [reflexivity|]. destruct D1 as (B & _). destruct (B i Z) as [W|W]; rewrite W, (Q i Z), G1; reflexivity.
Qed.
Print Assumptions C49_second_session_exact.

(** ** Exceptions *)
(** After the first session a read-only directory of an ordinary user's source is writable in the mirror. *)
Theorem C49_new_closed_directory_stays_open_refuted :
  exists (source mirror : list entry) flags t',
    listing fst source /\ a_tree source /\ listing fst mirror /\ a_tree mirror
    /\ dp_session false (fun _ => 0) true (fun _ => true) (fun _ n => Some n) node_same source mirror (mk_tree mirror []) = Some (flags, t')
    /\ get [bs "d"] (new_metadata source mirror flags) = Some (NDir (ex_a 320 2))
    /\ get [bs "d"] (files t') = Some (NDir (ex_a 448 2)).
Proof.
  exists [([], NDir (ex_a 493 1)); ([bs "d"], NDir (ex_a 320 2))], [([], NDir (ex_a 493 1))]. eexists. eexists.
  split; [apply listing_dec; vm_compute; reflexivity|]. split; [apply a_tree_dec; vm_compute; reflexivity|].
  split; [apply listing_dec; vm_compute; reflexivity|]. split; [apply a_tree_dec; vm_compute; reflexivity|].
  split; [vm_compute; reflexivity|]. split; vm_compute; reflexivity.
Qed.
Print Assumptions C49_new_closed_directory_stays_open_refuted.

(** Permissions given back too early: the directory [d] of the source isn't writable, [d/s] in it was removed.  The removal of
    [d/s] from the mirror waits for the next change; when more entries than fit in the cache are between, [d] has got its
    permissions back before, and the removal, hence the backup, fails, which it wouldn't without the reset. *)
Definition ex_reset_old : list entry :=
  [([], NDir (ex_a 493 10)); ([bs "d"], NDir (ex_a 320 11)); ([bs "d"; bs "s"], NDir (ex_a 493 12)); ([bs "e"], NOther (bs "e") (ex_a 420 13));
   ([bs "z"], NOther (bs "old") (ex_a 420 14))].
Definition ex_reset_new : list entry :=
  [([], NDir (ex_a 493 10)); ([bs "d"], NDir (ex_a 320 21)); ([bs "e"], NOther (bs "e") (ex_a 420 13));
   ([bs "z"], NOther (bs "new") (ex_a 420 24))].
Theorem C49_permissions_back_too_early_refuted :
  exists (source mirror : list entry) (noted : list (idx * Z)) (t1 : tree) (before : list item) (after : item) (r r' : prun) (t2 : tree),
    listing fst source /\ a_tree source /\ listing fst mirror /\ a_tree mirror
    /\ open_all false (collate2 fst fst source mirror) (mk_tree mirror []) = Some (noted, t1)
    /\ get_diffs node_same source mirror = before ++ [after]
    /\ rp_items false (fun _ => 99) true (fun i => get i mirror) (fun _ => true) (fun _ n => Some n)
         (fill_in fst before) (mk_prun None [] false [] t1) = Some r
    /\ rp_call false (fun _ => 99) true (fun i => get i mirror) (fun _ => true) (fun _ n => Some n) after r = Some r'
    (* an unchanged file following [d] leaves the cache *)
    /\ reset_dir_perms false noted [bs "e"] (p_tree r) = Some t2
    /\ rp_call false (fun _ => 99) true (fun i => get i mirror) (fun _ => true) (fun _ n => Some n) after
         (mk_prun (p_last r) (p_brs r) (p_fast r) (p_flags r) t2) = None.
Proof.
  exists ex_reset_new, ex_reset_old. eexists. eexists.
  exists (firstn 2 (get_diffs node_same ex_reset_new ex_reset_old)). exists ([bs "z"], Some (NOther (bs "new") (ex_a 420 24))).
  eexists. eexists. eexists.
  split; [apply listing_dec; vm_compute; reflexivity|]. split; [apply a_tree_dec; vm_compute; reflexivity|].
  split; [apply listing_dec; vm_compute; reflexivity|]. split; [apply a_tree_dec; vm_compute; reflexivity|].
  split; [vm_compute; reflexivity|]. split; [vm_compute; reflexivity|]. split; [vm_compute; reflexivity|].
  split; [vm_compute; reflexivity|]. split; [vm_compute; reflexivity|]. vm_compute. reflexivity.
Qed.
Print Assumptions C49_permissions_back_too_early_refuted.

(** ** Examples *)
Example ex_opened_history : exists t' meta',
  run_sessions_p false node_same ex_sessions (mk_tree ex_data [], ex_old) = Some (t', meta')
  /\ describes_opened false (in_data (bs "rdiff-backup-data")) t' meta'.
Proof.
  destruct (C49_every_history false node_same (bs "rdiff-backup-data") ex_sessions (mk_tree ex_data []) ex_old) as (t' & m & E & D & _).
  - exact node_same_eq.
  - unfold ex_sessions. apply Forall_forall. intros s [<-|[<-|[<-|[]]]]; apply ex_sound; auto; vm_compute; reflexivity.
  - apply listing_dec; vm_compute; reflexivity.
  - apply a_tree_dec; vm_compute; reflexivity.
  - apply a_tree_dec; vm_compute; reflexivity.
  - destruct ex_data_described as (A & B & C). split; [|split; [|exact C]].
    + intros i H. left. now apply A.
    + exact B.
  - exists t', m. now split.
Qed.
(** the closed directories of [ex_old]: opened, worked in, and closed again *)
Example ex_closed_again :
  match dp_session false (fun _ => 99) true (fun _ => true) (fun _ n => Some n) node_same ex_new ex_old (mk_tree ex_old []) with
  | Some (_, t') => (get [bs "k"] (files t'), get [bs "k"; bs "v"] (files t'), get [bs "d"] (files t'), get [bs "f"; bs "n"] (files t'))
  | None => (None, None, None, None)
  end = (Some (NDir (ex_a 320 16)), Some (NOther (bs "new v") (ex_a 0 28)), Some (NOther (bs "now a file") (ex_a 420 21)), Some (NDir (ex_a 448 23))).
Proof. vm_compute. reflexivity. Qed.

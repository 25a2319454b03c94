(** * C48: after a session the mirror is what the metadata of the session say *)
From Coq Require Import List ZArith Bool Ascii Lia Sorted.
From Verif Require Import Base L_Base M_Iter L_Iter L_Tree M_TreeFs L_TreeFs M_DirPatch S_DirPatch L_DirPatch M_RepoPatch S_RepoPatch
  L_RepoPatch P_Iter P_DirPatch.
Import List ListNotations.
Local Open Scope Z_scope.

Lemma opened_same root n : (root = true \/ forall a, n = NDir a -> low (a_perms a) = false) -> opened root n = n.
Proof.
  intros H. destruct n as [a|d a]; [|reflexivity]. cbn [opened]. unfold kept_usable. destruct H as [-> |H]; [reflexivity|].
  specialize (H a eq_refl). unfold low in H. rewrite H, andb_false_r. reflexivity.
Qed.

(** Whatever source and mirror are, and whichever files can't be written: the session works to its end, and leaves
    at every path what it was to make of it, everything else as it was, and no temporary file - if
    the directories of the mirror can be changed and nothing remains in a directory which is to go. *)
Theorem C48_mirror_after_a_session :
  forall (root : bool) (now : idx -> Z) (increments : bool) (cached : idx -> bool) (same : node -> node -> bool)
         (made : idx -> option node -> option (option node)) (source mirror : list entry) (t : tree),
    (forall m n, same m n = true -> is_dir (Some m) = is_dir (Some n)) ->
    listing fst source -> a_tree source ->
    listing fst mirror -> a_tree mirror ->
    a_tree (files t) -> (forall i, get i (temps t) = None) ->
    (forall i n, get i mirror = Some n -> get i (files t) = Some n) ->
    (forall i, unlisted (files t) mirror i -> get i source = None) ->
    (forall d c, unlisted (files t) mirror (d ++ [c]) -> get d mirror <> None -> is_dir (get d source) = true) ->
    (root = true \/ forall i a, get i mirror = Some (NDir a) -> low (a_perms a) = false) ->
    (forall i r, made i None = Some r -> r = None) ->
    (forall i n r, made i (Some n) = Some r -> exists d a, r = Some (NOther d a)) ->
    (forall d c, get (d ++ [c]) mirror <> None -> made (d ++ [c]) None = None -> is_dir (get d source) = true) ->
    exists flags t',
      rp_apply root now increments (fun i => get i mirror) cached made (get_diffs same source mirror) t = Some (flags, t')
      /\ (forall i, get i (files t') = mirror_after root same made source mirror (files t) i)
      /\ (forall i, get i (temps t') = None).
Proof.
  intros root now increments cached same made source mirror t Hsame H1 T1 H2 T2 T0 Ht Hl Hh Hk Hlow Hg Hf Hfail.
  destruct (rp_apply_spec root now increments cached same made source mirror t) as (t' & E & F); try assumption;
    try now apply listing_sorted.
  { intros i n G. rewrite (Hl _ _ G). f_equal. symmetry. apply opened_same. destruct Hlow as [L|L]; [now left|]. right. intros a ->. now apply (L i). }
  eexists. exists t'. split; [exact E|exact F].
Qed.
Print Assumptions C48_mirror_after_a_session.

(** If what is made of a file is the file, or a failure which is caught, then at every path the mirror holds what the
    metadata written say (or something taken for the same). *)
Theorem C48_metadata_describe_the_mirror :
  forall (root : bool) (now : idx -> Z) (increments : bool) (same : node -> node -> bool)
         (made : idx -> option node -> option (option node)) (source mirror : list entry) (t : tree),
    (forall m n, same m n = true -> is_dir (Some m) = is_dir (Some n)) ->
    listing fst source -> a_tree source ->
    listing fst mirror -> a_tree mirror ->
    a_tree (files t) -> (forall i, get i (temps t) = None) ->
    (forall i n, get i mirror = Some n -> get i (files t) = Some n) ->
    (forall i, unlisted (files t) mirror i -> get i source = None) ->
    (forall d c, unlisted (files t) mirror (d ++ [c]) -> get d mirror <> None -> is_dir (get d source) = true) ->
    (root = true \/ forall i a, get i mirror = Some (NDir a) \/ get i source = Some (NDir a) -> low (a_perms a) = false) ->
    (forall i r, made i None = Some r -> r = None) ->
    (forall i n r, made i (Some n) = Some r -> is_dir (Some n) = false /\ r = Some n) ->
    (forall d c, get (d ++ [c]) mirror <> None -> made (d ++ [c]) None = None -> is_dir (get d source) = true) ->
    exists flags t',
      rp_apply root now increments (fun i => get i mirror) (fun _ => true) made (get_diffs same source mirror) t = Some (flags, t')
      /\ forall i, if match get i mirror, get i (files t) with None, Some _ => true | _, _ => false end
                   then get i (files t') = get i (files t)
                   else get i (files t') = recorded source mirror flags i
                        \/ exists m n, recorded source mirror flags i = Some m /\ get i (files t') = Some n /\ same m n = true.
Proof.
  intros root now increments same made source mirror t Hsame H1 T1 H2 T2 T0 Ht Hl Hh Hk Hlow Hg Hf Hfail.
  assert (Hf' : forall i n r, made i (Some n) = Some r -> exists d a, r = Some (NOther d a)).
  { intros i n r M. destruct (Hf _ _ _ M) as (D & ->). destruct n as [a|d a]; [discriminate|eauto]. }
  assert (L1 : root = true \/ forall i a, get i mirror = Some (NDir a) -> low (a_perms a) = false).
  { destruct Hlow as [L|L]; [now left|]. right. intros i a G. apply (L i a). now left. }
  assert (L2 : root = true \/ forall i a, get i source = Some (NDir a) -> low (a_perms a) = false).
  { destruct Hlow as [L|L]; [now left|]. right. intros i a G. apply (L i a). now right. }
  assert (S1 : sorted_by fst source) by now apply listing_sorted.
  assert (S2 : sorted_by fst mirror) by now apply listing_sorted.
  assert (Hl' : forall i n, get i mirror = Some n -> get i (files t) = Some (opened root n)).
  { intros i n G. rewrite (Hl _ _ G). f_equal. symmetry. apply opened_same. destruct L1 as [L|L]; [now left|]. right. intros a ->. now apply (L i). }
  destruct (rp_apply_spec root now increments (fun _ => true) same made source mirror t) as (t' & E & F & _); try assumption.
  eexists. exists t'. split; [exact E|]. intros i. rewrite F.
  assert (U : (if match get i mirror, get i (files t) with None, Some _ => true | _, _ => false end then unlisted (files t) mirror i
    else ~ unlisted (files t) mirror i)).
  { unfold unlisted. destruct (get i mirror) as [n|], (get i (files t)) as [m|]; intuition congruence. }
  destruct (match get i mirror, get i (files t) with None, Some _ => true | _, _ => false end).
  - unfold mirror_after. unfold differs. rewrite (Hh i U), (proj2 U). reflexivity.
  - destruct (recorded_spec root now increments (fun _ => true) same made source mirror t) with (i := i) as [X|[X|X]]; try assumption; auto.
    + intros j n r M. now apply Hf in M.
    + left. etransitivity; [exact X|]. set (fl := pre_flags _ _ _ _ _).
      destruct (recorded source mirror fl i) as [n|] eqn:R; [|reflexivity]. cbn [option_map]. f_equal. apply opened_same.
      destruct Hlow as [L|L]; [now left|]. right. intros a ->. apply (L i). unfold recorded in R.
      destruct (find (fun fl : idx * nat => idx_eqb (fst fl) i) fl) as [[j n]|]; [destruct (Nat.eqb n 1); [now right|discriminate]|now left].
    + right. destruct X as (m & n & X1 & X2 & X3 & X4). exists m, n. split; [exact X1|]. split; [|exact X4]. rewrite X2. f_equal. apply opened_same.
      destruct L1 as [L|L]; [now left|]. right. intros a ->. now apply (L i).
Qed.
Print Assumptions C48_metadata_describe_the_mirror.

(** If nothing fails, the mirror is the source. *)
Theorem C48_mirror_is_the_source :
  forall (root : bool) (now : idx -> Z) (increments : bool) (cached : idx -> bool) (same : node -> node -> bool)
         (made : idx -> option node -> option (option node)) (source mirror : list entry) (t : tree),
    (forall m n, same m n = true -> m = n) ->
    listing fst source -> a_tree source ->
    listing fst mirror -> a_tree mirror ->
    a_tree (files t) -> (forall i, get i (temps t) = None) ->
    (forall i n, get i mirror = Some n -> get i (files t) = Some n) ->
    (forall i, unlisted (files t) mirror i -> get i source = None) ->
    (forall d c, unlisted (files t) mirror (d ++ [c]) -> get d mirror <> None -> is_dir (get d source) = true) ->
    (root = true \/ forall i a, get i mirror = Some (NDir a) \/ get i source = Some (NDir a) -> low (a_perms a) = false) ->
    (forall i, made i None = Some None) ->
    (forall i d a, made i (Some (NOther d a)) = Some (Some (NOther d a))) ->
    (forall i a, made i (Some (NDir a)) = None) ->
    exists flags t',
      rp_apply root now increments (fun i => get i mirror) cached made (get_diffs same source mirror) t = Some (flags, t')
      /\ forall i, get i (files t') = if match get i mirror, get i (files t) with None, Some _ => true | _, _ => false end
                                      then get i (files t) else get i source.
Proof.
  intros root now increments cached same made source mirror t Hsame H1 T1 H2 T2 T0 Ht Hl Hh Hk Hlow Hg Hf Hd.
  destruct (C48_mirror_after_a_session root now increments cached same made source mirror t) as (fl & t' & E & F & _); try assumption.
  - intros m n S. now rewrite (Hsame m n S).
  - destruct Hlow as [L|L]; [now left|]. right. intros i a G. apply (L i a). now left.
  - intros i r. rewrite Hg. congruence.
  - intros i [a|d a] r; [now rewrite Hd|]. rewrite Hf. intros [= <-]. eauto.
  - intros d c _. now rewrite Hg.
  - exists fl, t'. split; [assumption|]. intros i. rewrite F. unfold mirror_after, differs.
    destruct (get i mirror) as [n|] eqn:E1.
    + destruct (get i source) as [m|] eqn:E2.
      * destruct (same m n) eqn:S; cbn [negb].
        -- rewrite (Hl _ _ E1). now rewrite (Hsame _ _ S).
        -- destruct m as [a|d a]; [|now rewrite Hf]. unfold kept_usable. destruct Hlow as [-> |L]; [reflexivity|].
           assert (X : low (a_perms a) = false) by (apply (L i); now right). unfold low in X. rewrite X, andb_false_r. reflexivity.
      * now rewrite Hg.
    + destruct (get i (files t)) as [n|] eqn:E3.
      * rewrite Hh; [reflexivity|]. split; congruence.
      * destruct (get i source) as [[a|d a]|] eqn:E2; [|now rewrite Hf|reflexivity]. unfold kept_usable. destruct Hlow as [-> |L]; [reflexivity|].
        assert (X : low (a_perms a) = false) by (apply (L i); now right). unfold low in X. rewrite X, andb_false_r. reflexivity.
Qed.
Print Assumptions C48_mirror_is_the_source.

Lemma session_step root same hidden s t (meta : list entry) :
  (forall m n, same m n = true -> m = n) -> (forall d c, hidden (d ++ [c]) = true -> d = [] \/ hidden d = true) -> (forall d c, hidden d = true -> hidden (d ++ [c]) = true) ->
  sound_session root hidden s ->
  listing fst meta -> a_tree meta -> a_tree (files t) -> describes hidden t meta ->
  (root = true \/ forall i a, get i meta = Some (NDir a) -> low (a_perms a) = false) ->
  exists t' meta', run_session root same s (t, meta) = Some (t', meta')
    /\ listing fst meta' /\ a_tree meta' /\ a_tree (files t') /\ describes hidden t' meta'
    /\ (root = true \/ forall i a, get i meta' = Some (NDir a) -> low (a_perms a) = false)
    /\ forall i, hidden i = true -> get i (files t') = get i (files t).
Proof.
  intros Hsame Hhid Hhid2 (H1 & T1 & R1 & U1 & L1 & G1 & F1 & D1) H2 T2 T0 (A1 & A2 & A3) L2.
  assert (Su : forall i, unlisted (files t) meta i -> hidden i = true).
  { intros i (X & Y). destruct (hidden i) eqn:Z; [reflexivity|]. rewrite (A1 i Z) in X. contradiction. }
  assert (Hd : forall m n, same m n = true -> is_dir (Some m) = is_dir (Some n)) by (intros m n S; now rewrite (Hsame m n S)).
  assert (Hl : forall i n, get i meta = Some n -> get i (files t) = Some n).
  { intros i n G. destruct (hidden i) eqn:Z; [|now rewrite A1]. rewrite (A2 i Z) in G. discriminate. }
  assert (Hh : forall i, unlisted (files t) meta i -> get i (s_source s) = None) by (intros i X; now apply U1, Su).
  assert (Hk : forall d c, unlisted (files t) meta (d ++ [c]) -> get d meta <> None -> is_dir (get d (s_source s)) = true).
  { intros d c X Y. apply Su in X. apply Hhid in X as [->|X]; [assumption|]. now rewrite A2 in Y. }
  assert (Hf : forall i n r, s_made s i (Some n) = Some r -> exists d a, r = Some (NOther d a)).
  { intros i n r M. destruct (F1 _ _ _ M) as (D & ->). destruct n as [a|d a]; [discriminate|eauto]. }
  assert (Hff : forall d c, get (d ++ [c]) meta <> None -> s_made s (d ++ [c]) None = None -> is_dir (get d (s_source s)) = true).
  { intros d c _. apply D1. }
  assert (S1 : sorted_by fst (s_source s)) by now apply listing_sorted.
  assert (S2 : sorted_by fst meta) by now apply listing_sorted.
  assert (HF : forall i n r, s_made s i (Some n) = Some r -> r = Some n) by (intros i n r M; now apply F1 in M).
  assert (Hl' : forall i n, get i meta = Some n -> get i (files t) = Some (opened root n)).
  { intros i n G. rewrite (Hl _ _ G). f_equal. symmetry. apply opened_same. destruct L2 as [L|L]; [now left|]. right. intros a ->. now apply (L i). }
  destruct (rp_apply_spec root (s_now s) (s_increments s) (fun _ => true) same (s_made s) (s_source s) meta t) as (t' & E & F & T); try assumption.
  set (flags := pre_flags _ _ _ _ _) in E.
  assert (Rec : forall i, hidden i = false -> get i (files t') = recorded (s_source s) meta flags i).
  { intros i Z. rewrite F.
    destruct (recorded_spec root (s_now s) (s_increments s) (fun _ => true) same (s_made s) (s_source s) meta t) with (i := i) as [X|[X|X]]; try assumption; auto.
    - intros X. apply Su in X. congruence.
    - etransitivity; [exact X|]. fold flags. destruct (recorded (s_source s) meta flags i) as [n|] eqn:R; [|reflexivity]. cbn [option_map]. f_equal. apply opened_same.
      destruct L1 as [L|L1]; [now left|]. destruct L2 as [L|L2]; [now left|]. right. intros a ->. unfold recorded in R.
      destruct (find (fun fl : idx * nat => idx_eqb (fst fl) i) flags) as [[j n]|]; [destruct (Nat.eqb n 1); [now apply (L1 i)|discriminate]|now apply (L2 i)].
    - destruct X as (m & n & X1 & X2 & X3 & X4). unfold flags. rewrite X1, X2. apply Hsame in X4. subst m. f_equal. apply opened_same.
      destruct L2 as [L|L]; [now left|]. right. intros a ->. now apply (L i). }
  assert (Hid : forall i, hidden i = true -> get i (files t') = get i (files t)).
  { intros i Z. rewrite F. unfold mirror_after, differs. now rewrite (U1 i Z), (A2 i Z). }
  assert (Met : forall i, get i (new_metadata (s_source s) meta flags) = if hidden i then None else get i (files t')).
  { intros i. rewrite new_metadata_get by assumption. destruct (hidden i) eqn:Z.
    - now rewrite (U1 i Z), (A2 i Z).
    - rewrite Rec by assumption. destruct (get i (s_source s)) as [m|] eqn:X1; [reflexivity|].
      destruct (get i meta) as [n|] eqn:X2; [reflexivity|]. rewrite <- Rec by assumption. rewrite F.
      unfold mirror_after, differs. rewrite X1, X2. rewrite (A1 i Z). now symmetry. }
  exists t', (new_metadata (s_source s) meta flags). unfold run_session. rewrite E. split; [reflexivity|].
  assert (Tt : a_tree (files t')).
  { intros d c n G. assert (X : is_dir (get d (files t')) = true).
    { rewrite F in G |- *. apply (want_tree root (s_now s) (fun _ => true) same (s_made s) (s_source s) meta t) with (c := c); try assumption. congruence. }
    destruct (get d (files t')) as [[a|? ?]|]; try discriminate. eauto. }
  split; [apply listing_sorted; now apply new_metadata_sorted|].
  split; [|split; [assumption|split; [|split; [|assumption]]]].
  - intros d c n G. rewrite Met in G. destruct (hidden (d ++ [c])) eqn:Z; [discriminate|].
    apply Tt in G as (a & G). exists a. rewrite Met. destruct (hidden d) eqn:Zd; [|assumption].
    apply Hhid2 with (c := c) in Zd. congruence.
  - split; [|split; [|assumption]]; intros i Z; rewrite Met, Z; reflexivity.
  - destruct L2 as [L|L2]; [now left|]. destruct L1 as [L|L1]; [now left|]. right. intros i a. rewrite Met.
    destruct (hidden i) eqn:Z; [discriminate|]. rewrite Rec by assumption. unfold recorded.
    destruct (find (fun fl : idx * nat => idx_eqb (fst fl) i) flags) as [[j n]|]; [destruct (Nat.eqb n 1); [exact (L1 i a)|discriminate]|exact (L2 i a)].
Qed.

(** Through any number of sessions, whatever the sources are and whatever fails: every session works to its end, and the
    metadata always describe the mirror; nothing in the data directory is touched. *)
Theorem C48_every_history :
  forall (root : bool) (same : node -> node -> bool) (data : bytes) (sessions : list session) (t : tree) (meta : list entry),
    (forall m n, same m n = true -> m = n) ->
    Forall (sound_session root (in_data data)) sessions ->
    listing fst meta -> a_tree meta -> a_tree (files t) -> describes (in_data data) t meta ->
    (root = true \/ forall i a, get i meta = Some (NDir a) -> low (a_perms a) = false) ->
    exists t' meta', run_sessions root same sessions (t, meta) = Some (t', meta')
      /\ describes (in_data data) t' meta'
      /\ (forall i, in_data data i = true -> get i (files t') = get i (files t)).
Proof.
  intros root same data sessions t meta Hsame Hs. revert t meta. induction Hs as [|s l Hs _ IH]; intros t meta H T T0 D L; cbn [run_sessions].
  - exists t, meta. split; [reflexivity|]. split; [assumption|]. reflexivity.
  - destruct (session_step root same (in_data data) s t meta) as (t1 & m1 & E & H1 & T1 & T2 & D1 & L1 & K); try assumption.
    + intros [|x d] c X; [now left|]. right. exact X.
    + intros [|x d] c X; [discriminate|]. exact X.
    + rewrite E. destruct (IH t1 m1) as (t' & meta' & E' & D' & K'); try assumption.
      exists t', meta'. split; [assumption|]. split; [assumption|]. intros i Z. rewrite (K' i Z). now apply K.
Qed.
Print Assumptions C48_every_history.

(** ** Exceptions *)
(** A file whose deletion fails (its increment can't be written) in a directory to be removed stops the whole
    session. *)
Theorem C48_failed_deletion_in_removed_directory_refuted :
  exists (made : idx -> option node -> option (option node)) (source mirror : list entry),
    listing fst source /\ a_tree source /\ listing fst mirror /\ a_tree mirror
    /\ (forall i n, made i (Some n) = Some (Some n)) /\ made [bs "d"; bs "f"] None = None
    /\ (forall i, i <> [bs "d"; bs "f"] -> made i None = Some None)
    /\ rp_apply true (fun _ => 0) true (fun i => get i mirror) (fun _ => true) made (get_diffs node_same source mirror) (mk_tree mirror []) = None.
Proof.
  set (m := fun (i : idx) (n : option node) => match n with Some _ => Some n | None => if idx_eqb i [bs "d"; bs "f"] then None else Some None end).
  exists m, [([], NDir (ex_a 493 1))],
    [([], NDir (ex_a 493 1)); ([bs "d"], NDir (ex_a 493 2)); ([bs "d"; bs "f"], NOther (bs "x") (ex_a 420 3))].
  split; [apply listing_dec; vm_compute; reflexivity|]. split; [apply a_tree_dec; vm_compute; reflexivity|].
  split; [apply listing_dec; vm_compute; reflexivity|]. split; [apply a_tree_dec; vm_compute; reflexivity|].
  split; [reflexivity|]. split; [reflexivity|]. split.
  - intros i Hi. unfold m. apply idx_eqb_neq in Hi. now rewrite Hi.
  - vm_compute. reflexivity.
Qed.
Print Assumptions C48_failed_deletion_in_removed_directory_refuted.

(** Not as root, a directory without all permissions for its owner has other permissions than recorded when the changes are done. *)
Theorem C48_low_permissions_refuted :
  exists (source mirror : list entry) flags t',
    listing fst source /\ a_tree source /\ listing fst mirror /\ a_tree mirror
    /\ rp_apply false (fun _ => 0) true (fun i => get i mirror) (fun _ => true) (fun _ n => Some n) (get_diffs node_same source mirror)
         (mk_tree mirror []) = Some (flags, t')
    /\ recorded source mirror flags [bs "d"] = Some (NDir (ex_a 320 2))
    /\ get [bs "d"] (files t') = Some (NDir (ex_a 448 2)).
Proof.
  exists [([], NDir (ex_a 493 1)); ([bs "d"], NDir (ex_a 320 2))], [([], NDir (ex_a 493 1))]. eexists. eexists.
  split; [apply listing_dec; vm_compute; reflexivity|]. split; [apply a_tree_dec; vm_compute; reflexivity|].
  split; [apply listing_dec; vm_compute; reflexivity|]. split; [apply a_tree_dec; vm_compute; reflexivity|].
  split; [vm_compute; reflexivity|]. split; vm_compute; reflexivity.
Qed.
Print Assumptions C48_low_permissions_refuted.

(** ** Examples *)
(** a file which can't be written, a deletion which fails, then a directory replaced by a file *)
Definition ex_made (bad : idx) (i : idx) (n : option node) : option (option node) :=
  if idx_eqb i bad then None else match n with Some (NDir _) => None | _ => Some n end.
Definition ex_data : list entry :=
  ex_old ++ [([bs "rdiff-backup-data"], NDir (ex_a 448 1)); ([bs "rdiff-backup-data"; bs "chars"], NOther [] (ex_a 384 1))].
Definition ex_sessions : list session :=
  [mk_session (fun _ => 100) true (ex_made [bs "k"; bs "v"]) ex_new;
   mk_session (fun _ => 200) true (ex_made [bs "d"]) ex_old;
   mk_session (fun _ => 300) false (ex_made [bs "f"; bs "zz"]) ex_new].

Lemma ex_sound bad s : s = ex_old \/ s = ex_new -> is_dir (get (removelast bad) s) = true -> forall now inc,
  sound_session true (in_data (bs "rdiff-backup-data")) (mk_session now inc (ex_made bad) s).
Proof.
  intros Hs Hb now inc. unfold sound_session. cbn [s_source s_made].
  split; [destruct Hs as [-> | ->]; apply listing_dec; vm_compute; reflexivity|].
  split; [destruct Hs as [-> | ->]; apply a_tree_dec; vm_compute; reflexivity|].
  split; [destruct Hs as [-> | ->]; reflexivity|].
  split. { intros [|c i] H; [discriminate|]. cbn [in_data] in H. apply L_Base.beq_bytes_true in H. subst c.
    assert (X : forallb (fun e : entry => match fst e with c :: _ => negb (beq_bytes c (bs "rdiff-backup-data")) | [] => true end) s = true)
      by (destruct Hs as [-> | ->]; vm_compute; reflexivity).
    destruct (get (bs "rdiff-backup-data" :: i) s) as [n|] eqn:G; [|reflexivity]. apply get_in in G.
    rewrite forallb_forall in X. apply X in G. cbn [fst] in G. rewrite beq_bytes_refl in G. discriminate. }
  split; [now left|]. unfold ex_made. split; [|split].
  - intros i r. destruct (idx_eqb i bad); congruence.
  - intros i n r. destruct (idx_eqb i bad); [discriminate|]. destruct n as [a|d a]; [discriminate|]. intros [= <-]. now split.
  - intros d c. destruct (idx_eqb (d ++ [c]) bad) eqn:E; [|discriminate]. apply idx_eqb_eq in E. intros _. rewrite <- E, removelast_last in Hb. assumption.
Qed.

Lemma ex_data_described : describes (in_data (bs "rdiff-backup-data")) (mk_tree ex_data []) ex_old.
Proof.
  split; [|split; [|reflexivity]].
  + intros i H. cbn [files]. unfold ex_data.
    assert (X : forall l, get i (l ++ [([bs "rdiff-backup-data"], NDir (ex_a 448 1)); ([bs "rdiff-backup-data"; bs "chars"], NOther [] (ex_a 384 1))]) = get i l).
    { induction l as [|[j n] l IH]; cbn [app get].
      - destruct (idx_eqb [bs "rdiff-backup-data"] i) eqn:E1; [apply idx_eqb_eq in E1; subst i; discriminate|].
        destruct (idx_eqb [bs "rdiff-backup-data"; bs "chars"] i) eqn:E2; [apply idx_eqb_eq in E2; subst i; discriminate|reflexivity].
      - now rewrite IH. }
    apply X.
  + intros [|c i] H; [discriminate|]. cbn [in_data] in H. apply L_Base.beq_bytes_true in H. subst c.
    destruct (get (bs "rdiff-backup-data" :: i) ex_old) as [n|] eqn:G; [|reflexivity]. apply get_in in G.
    assert (X : forallb (fun e : entry => match fst e with c :: _ => negb (beq_bytes c (bs "rdiff-backup-data")) | [] => true end) ex_old = true)
      by (vm_compute; reflexivity).
    rewrite forallb_forall in X. apply X in G. cbn [fst] in G. rewrite beq_bytes_refl in G. discriminate.
Qed.

Example C48_example : exists t' meta',
  run_sessions true node_same ex_sessions (mk_tree ex_data [], ex_old) = Some (t', meta')
  /\ describes (in_data (bs "rdiff-backup-data")) t' meta'.
Proof.
  destruct (C48_every_history true node_same (bs "rdiff-backup-data") ex_sessions (mk_tree ex_data []) ex_old) as (t' & m & E & D & _).
  - exact node_same_eq.
  - unfold ex_sessions. apply Forall_forall. intros s [<-|[<-|[<-|[]]]]; apply ex_sound; auto; vm_compute; reflexivity.
  - apply listing_dec; vm_compute; reflexivity.
  - apply a_tree_dec; vm_compute; reflexivity.
  - apply a_tree_dec; vm_compute; reflexivity.
  - exact ex_data_described.
  - now left.
  - eauto.
Qed.
(** what that is: the file which couldn't be written as it was, the directory which couldn't be made a file still a file *)
Example C48_example_run :
  match run_sessions true node_same ex_sessions (mk_tree ex_data [], ex_old) with
  | Some (t, meta) => (get [bs "d"] (files t), get [bs "k"; bs "v"] meta, length meta)
  | None => (None, None, O)
  end = (Some (NOther (bs "now a file") (ex_a 420 21)), Some (NOther (bs "new v") (ex_a 0 28)), 8%nat).
Proof. vm_compute. reflexivity. Qed.

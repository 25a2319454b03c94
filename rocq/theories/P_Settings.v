(** * C65, C66: settings derived from the abilities of the file systems *)
From Coq Require Import List NArith Bool Ascii.
From Verif Require Import Base L_Base M_Quoting L_Quoting P_Quoting M_EaAcl M_Settings.
Import List ListNotations.

(** ** C65: extra metadata *)
Lemma kind_eqb_refl k : kind_eqb k k = true.
Proof. now destruct k. Qed.

(** what the settings are in the end *)
Lemma backup_values cin cout src dest w g g' : backup_globals cin cout src dest w g = Some g' ->
  forall k, g_active g' k = supports src k && wanted w k /\ g_write g' k = supports dest k && wanted w k /\
    g_conn g' cout k = supports dest k && wanted w k /\
    (cin <> cout -> g_conn g' cin k = supports src k && wanted w k).
Proof.
  unfold backup_globals. destruct (_ && _); [discriminate|]. intros [= <-] k.
  destruct (Nat.eq_dec cin cout) as [->|Hn].
  - destruct k; cbn; unfold set_k; rewrite !Nat.eqb_refl; cbn; (split; [reflexivity|split; [reflexivity|split; [reflexivity|congruence]]]).
  - pose proof (proj2 (Nat.eqb_neq _ _) Hn) as H1. pose proof (proj2 (Nat.eqb_neq _ _) (not_eq_sym Hn)) as H2.
    destruct k; cbn; unfold set_k; rewrite !Nat.eqb_refl, !H1, !H2; cbn; (split; [reflexivity|split; [reflexivity|split; [reflexivity|reflexivity]]]).
Qed.
Lemma restore_values cin cout src dest w g g' : restore_globals cin cout src dest w g = Some g' ->
  forall k, g_active g' k = supports dest k && wanted w k /\ g_write g' k = supports dest k && wanted w k /\
    g_conn g' cin k = supports src k && wanted w k /\
    (cin <> cout -> g_conn g' cout k = supports dest k && wanted w k).
Proof.
  unfold restore_globals. destruct (_ && _); [discriminate|]. intros [= <-] k.
  destruct (Nat.eq_dec cin cout) as [->|Hn].
  - destruct k; cbn; unfold set_k; rewrite !Nat.eqb_refl; cbn; (split; [reflexivity|split; [reflexivity|split; [reflexivity|congruence]]]).
  - pose proof (proj2 (Nat.eqb_neq _ _) Hn) as H1. pose proof (proj2 (Nat.eqb_neq _ _) (not_eq_sym Hn)) as H2.
    destruct k; cbn; unfold set_k; rewrite !Nat.eqb_refl, !H1, !H2; cbn; (split; [reflexivity|split; [reflexivity|split; [reflexivity|reflexivity]]]).
Qed.

(** Backup of a file: every kind of extra metadata which the file system of the source
    supports and which isn't switched off is recorded, whatever the repository's file
    system supports, if source and repository are on different connections, and also on the
    same one if the repository's file system supports it.  Resource forks and carbon files
    are only those of regular files. *)
Theorem C65_extra_metadata_recorded :
  forall A cin cout src dest w g0 g (regular : bool) (x : @extras A) k,
  backup_globals cin cout src dest w g0 = Some g ->
  supports src k = true -> wanted w k = true -> cin <> cout \/ supports dest k = true ->
  (regular = true \/ k = KEa \/ k = KAcl \/ k = KWinAcl) ->
  record_extras g (read_extras g cin regular x) k = x k.
Proof.
  intros A cin cout src dest w g0 g regular x k E Hs Hw Hc Hr.
  destruct (backup_values _ _ _ _ _ _ _ E k) as (Ha & _ & Hco & Hci). rewrite Hs, Hw in *. cbn in Ha.
  assert (Hcin : g_conn g cin k = true).
  { destruct (Nat.eq_dec cin cout) as [->|Hn]; [|now apply Hci]. destruct Hc as [Hc|Hc]; [congruence|]. now rewrite Hco, Hc. }
  unfold record_extras, read_extras. rewrite Ha, Hcin, orb_true_r. cbn [andb].
  destruct Hr as [->|[->|[->| ->]]]; [now rewrite orb_true_r|reflexivity..].
Qed.
Print Assumptions C65_extra_metadata_recorded.

(** ... and restored: from the metadata, if the target's file system supports the kind and
    it isn't switched off in the restore, whatever the other file systems support. *)
Theorem C65_extra_metadata_restored :
  forall A cin cout src dest w g0 g w' (regular : bool) (x : @extras A) k rin rout repo target g1 g',
  backup_globals cin cout src dest w g0 = Some g ->
  supports src k = true -> wanted w k = true -> cin <> cout \/ supports dest k = true ->
  (regular = true \/ k = KEa \/ k = KAcl \/ k = KWinAcl) ->
  restore_globals rin rout repo target w' g1 = Some g' ->
  supports target k = true -> wanted w' k = true ->
  write_extras g' (load_extras g' (record_extras g (read_extras g cin regular x))) k = x k.
Proof.
  intros A cin cout src dest w g0 g w' regular x k rin rout repo target g1 g' E Hs Hw Hc Hr E' Ht Hw'.
  destruct (restore_values _ _ _ _ _ _ _ E' k) as (Ha & Hwr & _). rewrite Ht, Hw' in *.
  unfold write_extras, load_extras, record_extras at 1. rewrite Hwr, Ha, orb_true_r. cbn [andb].
  eapply C65_extra_metadata_recorded; eauto.
Qed.
Print Assumptions C65_extra_metadata_restored.

(** nothing is written to a file system which doesn't support it, and a kind switched off
    is neither read nor recorded in a file of its own nor written, in a backup or restore *)
Theorem C65_unsupported_never_written :
  forall A c1 c2 f1 f2 w g0 g (x : @extras A) k,
  backup_globals c1 c2 f1 f2 w g0 = Some g \/ restore_globals c1 c2 f1 f2 w g0 = Some g ->
  supports f2 k = false -> write_extras g x k = None.
Proof.
  intros A c1 c2 f1 f2 w g0 g x k [E|E] H; unfold write_extras.
  - destruct (backup_values _ _ _ _ _ _ _ E k) as (_ & -> & _). now rewrite H.
  - destruct (restore_values _ _ _ _ _ _ _ E k) as (_ & -> & _). now rewrite H.
Qed.
Print Assumptions C65_unsupported_never_written.
Theorem C65_switched_off :
  forall A c1 c2 f1 f2 w g0 g (regular : bool) (x : @extras A) k,
  backup_globals c1 c2 f1 f2 w g0 = Some g \/ restore_globals c1 c2 f1 f2 w g0 = Some g ->
  wanted w k = false ->
  read_extras g c1 regular x k = None /\ read_extras g c2 regular x k = None /\ write_extras g x k = None /\
  (k = KEa \/ k = KAcl \/ k = KWinAcl -> record_extras g x k = None).
Proof.
  intros A c1 c2 f1 f2 w g0 g regular x k E H.
  assert (HV : g_conn g c1 k = false /\ g_conn g c2 k = false /\ g_write g k = false /\ g_active g k = false).
  { destruct E as [E|E].
    - destruct (backup_values _ _ _ _ _ _ _ E k) as (A1 & A2 & A3 & A4). rewrite H, !andb_false_r in *.
      destruct (Nat.eq_dec c1 c2) as [->|Hn]; auto.
    - destruct (restore_values _ _ _ _ _ _ _ E k) as (A1 & A2 & A3 & A4). rewrite H, !andb_false_r in *.
      destruct (Nat.eq_dec c1 c2) as [->|Hn]; auto. }
  destruct HV as (H1 & H2 & H3 & H4). unfold read_extras, write_extras, record_extras. rewrite H1, H2, H3, H4.
  repeat split; try reflexivity. intros [->|[->| ->]]; reflexivity.
Qed.
Print Assumptions C65_switched_off.

(** the same by the names of the options *)
Theorem C65_options :
  forall A c1 c2 f1 f2 w g0 g (regular : bool) (x : @extras A),
  backup_globals c1 c2 f1 f2 w g0 = Some g \/ restore_globals c1 c2 f1 f2 w g0 = Some g ->
  let off k := read_extras g c1 regular x k = None /\ read_extras g c2 regular x k = None /\ write_extras g x k = None in
  (w_eas w = false -> off KEa) /\ (w_acls w = false -> off KAcl /\ off KWinAcl) /\
  (w_forks w = false -> off KFork) /\ (w_carbon w = false -> off KCarbon).
Proof.
  intros A c1 c2 f1 f2 w g0 g regular x E off.
  assert (H : forall k, wanted w k = false -> off k).
  { intros k Hk. destruct (C65_switched_off A c1 c2 f1 f2 w g0 g regular x k E Hk) as (B1 & B2 & B3 & _). unfold off. auto. }
  repeat split; apply H; assumption.
Qed.
Print Assumptions C65_options.

(** Exception: source and repository on the same machine, the repository's file system
    doesn't support what the source's supports: the setting of the only connection is
    overwritten with that of the repository, nothing is read, nothing recorded.  With
    --never-drop-acls this isn't refused, though ACLs are dropped. *)
Theorem C65_local_dropped_refuted :
  forall A c src dest w g0 g (regular : bool) (x : @extras A) k,
  backup_globals c c src dest w g0 = Some g -> supports dest k = false ->
  record_extras g (read_extras g c regular x) k = None.
Proof.
  intros A c src dest w g0 g regular x k E Hd.
  destruct (backup_values _ _ _ _ _ _ _ E k) as (_ & _ & Hco & _). rewrite Hd in Hco.
  unfold record_extras, read_extras. rewrite Hco. cbn [andb]. now destruct (_ || _).
Qed.
Print Assumptions C65_local_dropped_refuted.

(** --never-drop-acls: a session which isn't refused records the ACLs of the source, over
    a connection *)
Theorem C65_never_drop_acls :
  forall A cin cout src dest w g0 (regular : bool) (x : @extras A),
  never_drop w = true ->
  (backup_globals cin cout src dest w g0 = None <-> supports src KAcl && wanted w KAcl = false) /\
  forall g, backup_globals cin cout src dest w g0 = Some g -> cin <> cout ->
    record_extras g (read_extras g cin regular x) KAcl = x KAcl.
Proof.
  intros A cin cout src dest w g0 regular x Hn. split.
  - unfold backup_globals. cbn. unfold set_k. cbn. rewrite Hn. cbn [andb]. destruct (supports src KAcl && w_acls w); cbn; split; congruence.
  - intros g E Hc.
    assert (Ha : supports src KAcl && wanted w KAcl = true).
    { unfold backup_globals in E. cbn in E. unfold set_k in E. cbn in E. rewrite Hn in E. cbn [andb wanted].
      cbn [wanted]. destruct (supports src KAcl && w_acls w); [reflexivity|discriminate E]. }
    apply andb_true_iff in Ha as [H1 H2]. eapply C65_extra_metadata_recorded; eauto.
Qed.
Print Assumptions C65_never_drop_acls.
Theorem C65_never_drop_acls_refuted :
  exists src dest w, never_drop w = true /\ supports src KAcl = true /\ wanted w KAcl = true /\
  forall c g0, exists g, backup_globals c c src dest w g0 = Some g /\
    forall A regular (x : @extras A), record_extras g (read_extras g c regular x) KAcl = None.
Proof.
  exists (mk_fsa (fun _ => true) false false), (mk_fsa (fun _ => false) false false), (mk_options true true true true true).
  split; [reflexivity|]. split; [reflexivity|]. split; [reflexivity|]. intros c g0.
  destruct (backup_globals c c (mk_fsa (fun _ => true) false false) (mk_fsa (fun _ => false) false false) (mk_options true true true true true) g0) as [g|] eqn:E;
    [|discriminate E].
  exists g. split; [reflexivity|]. intros A regular x. eapply C65_local_dropped_refuted; [exact E|reflexivity].
Qed.
Print Assumptions C65_never_drop_acls_refuted.

(** A change of extra metadata alone: it makes the file count as changed if the kind is
    written to the repository; else it is ignored, so that the session keeps the old
    record although the kind is recorded (except for resource forks, where the name of the
    key ignored is another one). *)
Theorem C65_changes_noticed :
  forall A (aeq : A -> A -> bool) g (x y : @extras A) k a,
  g_write g k = true -> x k = Some a -> (match y k with Some b => aeq a b | None => false end) = false ->
  extras_same aeq g x y = false.
Proof.
  intros A aeq g x y k a Hw Hx Hy. unfold extras_same.
  destruct (forallb _ _) eqn:E; [|reflexivity]. exfalso. rewrite forallb_forall in E.
  assert (Hk : In k [KEa; KAcl; KWinAcl; KFork; KCarbon]) by (destruct k; cbn; tauto).
  specialize (E k Hk). rewrite Hx in E.
  assert (Hi : existsb (fun i => beq_bytes i (key_of k)) (ignored_keys g) = false).
  { unfold ignored_keys. destruct k; rewrite Hw;
    destruct (g_write g KEa), (g_write g KAcl), (g_write g KWinAcl), (g_write g KFork), (g_write g KCarbon); reflexivity. }
  rewrite Hi in E. cbn [orb] in E. destruct (y k); congruence.
Qed.
Print Assumptions C65_changes_noticed.
Theorem C65_change_missed_refuted :
  forall A (aeq : A -> A -> bool) g (x y : @extras A) k, k <> KFork ->
  g_write g k = false -> (forall k', k' <> k -> match x k', y k' with Some a, Some b => aeq a b = true | None, _ => True | _, _ => False end) ->
  extras_same aeq g x y = true.
Proof.
  intros A aeq g x y k Hf Hw H. unfold extras_same. apply forallb_forall. intros k' _.
  assert (Hd : k' = k \/ k' <> k) by (destruct k', k; (now left) || (right; discriminate)).
  destruct Hd as [->|Hd].
  - assert (Hi : existsb (fun i => beq_bytes i (key_of k)) (ignored_keys g) = true).
    { unfold ignored_keys. destruct k; try congruence; rewrite Hw;
      destruct (g_write g KEa), (g_write g KAcl), (g_write g KWinAcl), (g_write g KFork), (g_write g KCarbon); reflexivity. }
    now rewrite Hi.
  - specialize (H k' Hd). destruct (x k'), (y k'); try rewrite H; try tauto; apply orb_true_r.
Qed.
Print Assumptions C65_change_missed_refuted.

(** a remote backup to a file system without EAs, and a restore elsewhere *)
Example settings_example :
  let ext4 := mk_fsa (fun k => match k with KEa | KAcl => true | _ => false end) false false in
  let vfat := mk_fsa (fun _ => false) true true in
  let w := mk_options true true true true false in
  let off := mk_globals (fun _ => false) (fun _ => false) (fun _ _ => false) in
  let x : @extras bytes := fun k => match k with KEa => Some (bs "user.x=1") | _ => None end in
  exists g g', backup_globals 1 0 ext4 vfat w off = Some g /\ restore_globals 0 1 vfat ext4 w off = Some g' /\
    write_extras g (read_extras g 1 true x) KEa = None /\
    write_extras g' (load_extras g' (record_extras g (read_extras g 1 true x))) KEa = Some (bs "user.x=1") /\
    exists gl, backup_globals 0 0 ext4 vfat w off = Some gl /\ record_extras gl (read_extras gl 0 true x) KEa = None.
Proof. cbn zeta. eexists. eexists. split; [reflexivity|]. split; [reflexivity|]. split; [reflexivity|]. split; [reflexivity|].
  eexists. split; reflexivity. Qed.

(** ** C66: names *)
Lemma esc_roundtrip swap dos trail :
  mem DOS (read_set (write_set (esc_members swap dos trail))) = dos /\
  mem TRAIL (read_set (write_set (esc_members swap dos trail))) = trail.
Proof. destruct swap, dos, trail; vm_compute; auto. Qed.

Definition recorded_as (r : nrec) (n : naming) : Prop :=
  rec_ctq r = Some (n_ctq n) /\ exists c, rec_esc r = Some c /\ mem DOS (read_set c) = n_dos n /\ mem TRAIL (read_set c) = n_trail n.
Lemma backup_naming_records e s sw src dest r n r' : backup_naming e s sw src dest r = Some (n, r') -> recorded_as r' n.
Proof.
  unfold backup_naming. destruct (compare_ctq (rec_ctq r) e s) as [[ctq stored]|] eqn:E; [|discriminate].
  assert (Hc : ctq = stored).
  { unfold compare_ctq in E. destruct (rec_ctq r) as [prev|].
    - destruct (beq_bytes _ prev) eqn:Eb; [|discriminate]. injection E as <- <-. now apply beq_bytes_true.
    - now injection E as <- <-. }
  subst stored. destruct (rec_esc r) as [c|]; intros [= <- <-]; split; [reflexivity|eexists; split; [reflexivity|]; split; reflexivity|reflexivity|].
  eexists. split; [reflexivity|]. apply esc_roundtrip.
Qed.
Lemma backup_naming_keeps e s sw src dest r n0 n r' : recorded_as r n0 -> backup_naming e s sw src dest r = Some (n, r') -> n = n0.
Proof.
  intros (Hq & c & Hc & H1 & H2) E. unfold backup_naming in E. rewrite Hc in E.
  destruct (compare_ctq (rec_ctq r) e s) as [[ctq stored]|] eqn:Ec; [|discriminate]. injection E as <- _.
  unfold compare_ctq in Ec. rewrite Hq in Ec. destruct (beq_bytes _ (n_ctq n0)) eqn:Eb; [|discriminate].
  injection Ec as <- _. apply beq_bytes_true in Eb. rewrite H1, H2, Eb. now destruct n0.
Qed.
Lemma naming_run_keeps l : forall r n0 out r', recorded_as r n0 -> naming_run r l = (out, r') ->
  recorded_as r' n0 /\ forall n, In (Some n) out -> n = n0.
Proof.
  induction l as [|s l IH]; intros r n0 out r' Hr E; cbn in E.
  - injection E as <- <-. split; [exact Hr|intros n []].
  - destruct (backup_naming _ _ _ _ _ r) as [[n r1]|] eqn:Eb.
    + destruct (naming_run r1 l) as [out1 r2] eqn:E1. injection E as <- <-.
      pose proof (backup_naming_keeps _ _ _ _ _ _ _ _ _ Hr Eb) as ->.
      destruct (IH r1 n0 out1 r2 (backup_naming_records _ _ _ _ _ _ _ _ Eb) E1) as [A B]. split; [exact A|].
      intros n [[= <-]|H]; auto.
    + destruct (naming_run r l) as [out1 r2] eqn:E1. injection E as <- <-.
      destruct (IH r n0 out1 r2 Hr E1) as [A B]. split; [exact A|]. intros n [H|H]; [discriminate|auto].
Qed.
Lemma naming_run_same l : forall r out r' n, naming_run r l = (out, r') -> In (Some n) out -> recorded_as r' n.
Proof.
  induction l as [|s l IH]; intros r out r' n E Hin; cbn in E.
  - injection E as <- <-. destruct Hin.
  - destruct (backup_naming _ _ _ _ _ r) as [[n1 r1]|] eqn:Eb.
    + destruct (naming_run r1 l) as [out1 r2] eqn:E1. injection E as <- <-.
      destruct Hin as [[= <-]|Hin]; [|eauto].
      eapply naming_run_keeps; [|exact E1]. eapply backup_naming_records; eauto.
    + destruct (naming_run r l) as [out1 r2] eqn:E1. injection E as <- <-. destruct Hin as [H|Hin]; [discriminate|eauto].
Qed.

(** Over the whole life of a repository, whatever file systems, quoting options and sources
    the sessions had: all sessions which weren't refused used the same quoting and special
    escapes, and every later command reading the repository (restore, compare, regress, ...),
    wherever it runs, uses them too, unless --chars-to-quote is given. *)
Theorem C66_same_names_for_ever :
  forall r0 sessions out r n, naming_run r0 sessions = (out, r) -> In (Some n) out ->
  (forall n', In (Some n') out -> n' = n) /\
  forall src dest, restore_naming None src dest r = n.
Proof.
  intros r0 sessions out r n E Hin. pose proof (naming_run_same _ _ _ _ _ E Hin) as (Hq & c & Hc & H1 & H2). split.
  - intros n' Hin'. pose proof (naming_run_same _ _ _ _ _ E Hin') as (Hq' & c' & Hc' & H1' & H2').
    rewrite Hc in Hc'. injection Hc' as <-. rewrite Hq in Hq'. injection Hq' as Hq'. destruct n, n'. cbn in *. congruence.
  - intros src dest. unfold restore_naming. rewrite Hc, Hq, H1, H2. now destruct n.
Qed.
Print Assumptions C66_same_names_for_ever.

(** So a file of a session is found again under the same name by any of these commands,
    and its name is decoded to the original; conditions on the set of characters as in C10. *)
Theorem C66_names_found_and_decoded :
  forall class_of r0 sessions out r n src dest (name : bytes),
  naming_run r0 sessions = (out, r) -> In (Some n) out ->
  (forall c, In c name -> class_of (n_ctq n) c = true -> (N_of_ascii c < 128)%N) ->
  let n' := restore_naming None src dest r in
  disk_name class_of n' name = disk_name class_of n name /\ read_name n' (disk_name class_of n name) = name.
Proof.
  intros class_of r0 sessions out r n src dest name E Hin Hc n'.
  assert (En : n' = n) by (apply (C66_same_names_for_ever _ _ _ _ _ E Hin)). rewrite En. split; [reflexivity|].
  unfold read_name, disk_name. destruct (n_ctq n) eqn:Eq; [reflexivity|]. rewrite <- Eq in *. now apply C10_fs_quoting_roundtrip.
Qed.
Print Assumptions C66_names_found_and_decoded.

(** Exceptions: without characters to quote the special escapes are recorded but not
    applied; and --chars-to-quote in a restore isn't compared with the record. *)
Theorem C66_escapes_without_quoting_refuted :
  exists s n r, naming_run (mk_nrec None None) [s] = ([Some n], r) /\ needs_trailing (ns_dest s) = true /\ needs_dos (ns_dest s) = true /\
    n_dos n = true /\ n_trail n = true /\
    forall class_of, disk_name class_of n (bs "aux") = bs "aux" /\ disk_name class_of n (bs "x.") = bs "x.".
Proof.
  exists (mk_ns None [] false (mk_fsa (fun _ => true) false false) (mk_fsa (fun _ => true) true true)).
  eexists. eexists. split; [reflexivity|]. repeat split; reflexivity.
Qed.
Print Assumptions C66_escapes_without_quoting_refuted.
Theorem C66_enforced_quoting_unchecked_refuted :
  exists s n r e, naming_run (mk_nrec None None) [s] = ([Some n], r) /\
    forall src dest, n_ctq (restore_naming (Some e) src dest r) <> n_ctq n /\
      read_name (restore_naming (Some e) src dest r) (disk_name (fun _ c => Ascii.eqb c ":"%char) n (bs "a:b")) <> bs "a:b".
Proof.
  exists (mk_ns None (bs ":;") false (mk_fsa (fun _ => true) false false) (mk_fsa (fun _ => true) false false)).
  eexists. eexists. exists []. split; [reflexivity|]. intros src dest. split; [discriminate|]. vm_compute. discriminate.
Qed.
Print Assumptions C66_enforced_quoting_unchecked_refuted.

(** Actions on a repository alone (a regress writes files, verify and listings read): what its file system
    supports and isn't switched off is read and written, nothing else. *)
Theorem C65_repository_alone :
  forall A c f w g0 (regular : bool) (x : @extras A) k,
  let g := single_globals c f w g0 in
  write_extras g (load_extras g x) k = (if supports f k && wanted w k then x k else None) /\
  read_extras g c regular x k =
    (if supports f k && wanted w k then match k with KFork | KCarbon => if regular then x k else None | _ => x k end else None).
Proof.
  intros A c f w g0 regular x k g.
  assert (V : g_active g k = supports f k && wanted w k /\ g_write g k = supports f k && wanted w k /\ g_conn g c k = supports f k && wanted w k).
  { unfold g. destruct k; cbn; unfold set_k; rewrite !Nat.eqb_refl; cbn; auto. }
  destruct V as (V1 & V2 & V3). unfold write_extras, load_extras, record_extras, read_extras. rewrite V1, V2, V3. clearbody g.
  destruct k; cbn [separate negb orb]; destruct (supports f _ && wanted w _); cbn [andb]; destruct regular; auto.
Qed.
Print Assumptions C65_repository_alone.

Example naming_example :
  let vfat := mk_fsa (fun _ => false) true true in let ext4 := mk_fsa (fun _ => true) false false in
  exists out r n, naming_run (mk_nrec None None)
    [mk_ns None (bs ":;") true ext4 vfat; mk_ns (Some (bs "x;")) (bs ":;") false ext4 vfat; mk_ns None [] false vfat ext4] = (out, r) /\
    out = [Some n; None; Some n] /\ rec_esc r = Some (bs "escape_trailing_spaces
escape_dos_devices") /\
    disk_name (fun _ c => Ascii.eqb c ":"%char) n (bs "con.a:.") = bs ";099on.a;058;046".
Proof. cbn zeta. eexists. eexists. eexists. split; [reflexivity|]. repeat split; vm_compute; reflexivity. Qed.

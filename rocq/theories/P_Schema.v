(** * C51: the command for a remote host is the remote schema with the host filled in *)
From Coq Require Import List ZArith Bool Ascii Lia.
From Verif Require Import Base L_Base M_Location S_Location L_Location L_Schema P_Location.
Import List ListNotations.
Local Open Scope Z_scope.

(** Every schema of text (with braces doubled) and placeholders is filled in as written; whatever
    bytes the host consists of, braces too, they're taken literally. *)
Theorem C51_filled_in_literally :
  forall (host Vx Vy Vz : bytes) (other : bytes -> option bytes) (parts : list schema_part),
    Forall good_part parts -> no_texts_in_a_row parts -> In Host parts ->
    fill_schema host Vx Vy Vz other (flat_map written parts) = Filled (flat_map (stands_for host Vx Vy Vz) parts).
Proof.
  intros host Vx Vy Vz other parts G R H. unfold fill_schema.
  rewrite find_fields_parts, find_known_parts, eqb_list_refl by assumption. cbn [andb].
  replace (existsb (beq_bytes (bs "h")) (fields_of parts)) with true; [now apply format_parts|]. symmetry.
  apply existsb_exists. exists (bs "h"). split; [|apply beq_bytes_refl]. unfold fields_of. apply in_flat_map. exists Host. split; [assumption|now left].
Qed.
Print Assumptions C51_filled_in_literally.

(** Without a place for the host nothing is run. *)
Theorem C51_host_needed :
  forall (host Vx Vy Vz : bytes) (other : bytes -> option bytes) (schema : bytes),
    (forall a b, schema <> a ++ bs "{h}" ++ b) -> fill_schema host Vx Vy Vz other schema = FatalSchema.
Proof.
  intros host Vx Vy Vz other schema H. unfold fill_schema.
  destruct (existsb (beq_bytes (bs "h")) (find_known schema)) eqn:E; [|now rewrite andb_false_r].
  apply existsb_exists in E as (f & F & B). apply beq_bytes_true in B. subst f. apply find_known_in in F as (_ & a & b & ->). now destruct (H a b).
Qed.
Print Assumptions C51_host_needed.

(** No other placeholder is ever evaluated, if no braces are doubled. *)
Theorem C51_only_host_and_version :
  forall (host Vx Vy Vz : bytes) (o1 o2 : bytes -> option bytes) (schema : bytes),
    (forall a b, schema <> a ++ bs "{{" ++ b) ->
    fill_schema host Vx Vy Vz o1 schema = fill_schema host Vx Vy Vz o2 schema.
Proof.
  intros host Vx Vy Vz o1 o2 schema H. unfold fill_schema.
  destruct (eqb_list (find_fields false None schema) (find_known schema)) eqn:E; cbn [andb]; [|reflexivity].
  destruct (existsb (beq_bytes (bs "h")) (find_known schema)); [|reflexivity]. apply format_other with (prev := false); [exact H|discriminate|].
  apply eqb_list_eq in E. rewrite E. intros f F. now apply find_known_in in F.
Qed.
Print Assumptions C51_only_host_and_version.

(** Together with C50: what is executed for host::path under the default schema, and for which path. *)
Definition default_schema (compression : bool) : bytes :=      (* SetConnections.py:64-75 without options *)
  (if compression then bs "ssh -C {h} rdiff-backup" else bs "ssh {h} rdiff-backup") ++ bs " server".
Theorem C51_default_command :
  forall (Vx Vy Vz : bytes) (other : bytes -> bytes -> option bytes) (compression : bool) (host path : bytes),
    host <> [] -> path <> [] -> ~ In bslash path ->
    (forall h, host <> h ++ [bslash; bslash]) -> (forall n h, host <> repeat bslash (S n) ++ nl :: h) ->
    cmd_pair (default_schema compression) Vx Vy Vz other (parse_location (quote host ++ bs "::" ++ quote path))
    = Some (Some ((if compression then bs "ssh -C " else bs "ssh ") ++ host ++ bs " rdiff-backup server"), path).
Proof.
  intros Vx Vy Vz other compression host path H1 H2 H3 H4 H5. rewrite C50_quoted_host_and_path by assumption. unfold cmd_pair.
  replace (default_schema compression) with
    (flat_map written [Text (if compression then bs "ssh -C " else bs "ssh "); Host; Text (bs " rdiff-backup server")]) by (destruct compression; reflexivity).
  rewrite C51_filled_in_literally.
  - cbn [flat_map stands_for app]. now rewrite app_nil_r.
  - assert (T : forall s, ~ In obrace s -> good_part (Text s)).
    { intros s N. split; [intros f a b _ ->|intros a ->]; apply N; apply in_or_app; right; now left. }
    apply Forall_forall. intros p [<-|[<-|[<-|[]]]]; [|exact I|]; apply T.
    + destruct compression; intros H; vm_compute in H; repeat destruct H as [H|H]; discriminate || contradiction.
    + intros H; vm_compute in H; repeat destruct H as [H|H]; discriminate || contradiction.
  - exact I.
  - right. now left.
Qed.
Print Assumptions C51_default_command.

(** ** Exceptions *)
(** The check for other placeholders can be evaded with a doubled brace in front, *)
Theorem C51_other_placeholders_refuted :
  exists schema f, ~ In f known_fields /\
    forall host Vx Vy Vz v, fill_schema host Vx Vy Vz (fun g => if beq_bytes g f then Some v else None) schema = Filled (host ++ bs "{" ++ v).
Proof.
  exists (bs "{h}{{{h.__class__}"), (bs "h.__class__"). split; [intros H; vm_compute in H; repeat destruct H as [H|H]; discriminate || contradiction|].
  intros. unfold fill_schema. replace (eqb_list _ _) with true by (vm_compute; reflexivity). replace (existsb _ _) with true by (vm_compute; reflexivity).
  cbn [andb]. set (o := fun g => _).
  change (format host Vx Vy Vz o None (bs "{h}{{{h.__class__}")) with (match format host Vx Vy Vz o None (bs "{{{h.__class__}") with Filled x => Filled (host ++ x) | r => r end).
  replace (format host Vx Vy Vz o None (bs "{{{h.__class__}")) with (Filled (bs "{" ++ v)); [reflexivity|].
  cbn. now rewrite app_nil_r.
Qed.
Print Assumptions C51_other_placeholders_refuted.
(** the host between doubled braces is refused although the comment allows it, and a single brace ends with an exception. *)
Theorem C51_braces_around_the_host_refuted : forall host Vx Vy Vz other,
  fill_schema host Vx Vy Vz other (flat_map written [Text (bs "{"); Host; Text (bs "}")]) = FatalSchema
  /\ fill_schema host Vx Vy Vz other (bs "{h} }") = FormatError.
Proof. intros. split; reflexivity. Qed.
Print Assumptions C51_braces_around_the_host_refuted.

(** ** Examples *)
Definition ex_schema : list schema_part :=
  [Text (bs "docker exec "); Host; Text (bs " sh -c 'for i in {1..3}; do rdiff-backup-"); Version (chr 120); Text (bs " server; done'")].
Example ex_filled : fill_schema (bs "{h}$x") (bs "2") (bs "3") (bs "0") (fun _ => None) (flat_map written ex_schema)
  = Filled (bs "docker exec {h}$x sh -c 'for i in {1..3}; do rdiff-backup-2 server; done'").
Proof. reflexivity. Qed.
Lemma text_good_dec s : forallb (fun f => negb ((fix inf s := starts_with (obrace :: f ++ [cbrace]) s || match s with [] => false | _ :: s' => inf s' end) s)) known_fields
  && negb (Ascii.eqb (last s nl) obrace) = true -> good_part (Text s).
Proof.
  intros H. apply andb_true_iff in H as (H1 & H2). split.
  - intros f a b Hf ->. rewrite forallb_forall in H1. apply H1 in Hf. apply negb_true_iff in Hf. clear H1 H2. induction a as [|c a IH].
    + cbn [app] in Hf. assert (X : starts_with (obrace :: f ++ [cbrace]) (obrace :: f ++ cbrace :: b) = true).
      { apply starts_with_spec. exists b. cbn [app]. now rewrite <- app_assoc. }
      cbn [app] in Hf. rewrite X in Hf. discriminate.
    + cbn [app] in Hf. apply orb_false_iff in Hf as (_ & Hf). now apply IH in Hf.
  - intros a ->. rewrite last_last in H2. discriminate.
Qed.
Example ex_schema_good : Forall good_part ex_schema /\ no_texts_in_a_row ex_schema /\ In Host ex_schema.
Proof.
  split; [|split; [exact I|right; now left]]. unfold ex_schema. apply Forall_forall. intros p [<-|[<-|[<-|[<-|[<-|[]]]]]]; try exact I;
    try (apply text_good_dec; vm_compute; reflexivity). now left.
Qed.

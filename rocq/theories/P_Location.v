(** * C50: a location means what the manual says *)
From Coq Require Import List ZArith Bool Ascii Lia.
From Verif Require Import Base L_Base M_Location S_Location L_Location.
Import List ListNotations.
Local Open Scope Z_scope.

(** Every description, apart from three kinds of oddities, is understood as the manual says. *)
Theorem C50_as_the_manual_says : forall (desc : bytes),
  tidy desc -> parse_location desc = meaning (between [] [] desc).
Proof. exact parse_location_meaning. Qed.
Print Assumptions C50_as_the_manual_says.

(** Without backslashes: a description without double colon is a local path, itself, *)
Lemma between_plain s : ~ In bslash s -> (forall a b, s <> a ++ [colon; colon] ++ b) ->
  forall raw cur, between raw cur s = [(raw ++ s, cur ++ s)].
Proof.
  induction s as [|c s IH]; intros N C raw cur; [cbn; now rewrite !app_nil_r|].
  assert (Nc : c <> bslash) by (intros ->; apply N; now left).
  assert (IH' : between (raw ++ [c]) (cur ++ [c]) s = [(raw ++ c :: s, cur ++ c :: s)]).
  { rewrite IH; [now rewrite <- !app_assoc|intros H; apply N; now right|]. intros a b ->. now apply (C (c :: a) b). }
  destruct s as [|d s]; [reflexivity|]. rewrite between_2.
  destruct (Ascii.eqb c bslash) eqn:E; [apply eqb_bs in E; contradiction|]. cbn [andb].
  destruct (Ascii.eqb c colon && Ascii.eqb d colon) eqn:E2; [|exact IH'].
  apply andb_true_iff in E2 as (E2 & E3). apply Ascii.eqb_eq in E2, E3. subst. now destruct (C [] s).
Qed.
Lemma slashes_id s : ~ In bslash s -> slashes s = s.
Proof.
  induction s as [|c s IH]; intros N; [reflexivity|]. cbn [slashes map]. change (map _ s) with (slashes s). rewrite IH by (intros H; apply N; now right).
  destruct (Ascii.eqb c bslash) eqn:E; [apply eqb_bs in E; subst; exfalso; apply N; now left|reflexivity].
Qed.
Lemma network_none s : ~ In bslash s -> network s = false.
Proof.
  intros N. destruct s as [|c s]; [reflexivity|]. unfold network. cbn [starts_with]. rewrite (Ascii.eqb_sym bslash c).
  destruct (Ascii.eqb c bslash) eqn:E; [apply eqb_bs in E; subst; exfalso; apply N; now left|reflexivity].
Qed.
Lemma tidy_plain s : ~ In bslash s -> tidy s.
Proof.
  intros N. split; [|split].
  - intros a b n _ ->. apply N. apply in_or_app. right. now left.
  - intros a n _ ->. apply N. apply in_or_app. right. now left.
  - intros a b n _ ->. apply N. apply in_or_app. right. now left.
Qed.
Theorem C50_plain_path_is_itself : forall (path : bytes),
  ~ In bslash path -> (forall a b, path <> a ++ bs "::" ++ b) ->
  parse_location path = Local path.
Proof.
  intros p N C. rewrite parse_location_meaning by now apply tidy_plain. rewrite between_plain by assumption.
  cbn [meaning app]. unfold path_of. cbn [fst snd]. now rewrite network_none, slashes_id.
Qed.
Print Assumptions C50_plain_path_is_itself.

(** ... and host::path is that path at that host. *)
Theorem C50_plain_host_and_path : forall (host path : bytes),
  host <> [] -> path <> [] -> ~ In bslash (host ++ path) -> ~ In colon host -> (forall a b, path <> a ++ bs "::" ++ b) ->
  parse_location (host ++ bs "::" ++ path) = Remote host path.
Proof.
  intros h p Nh Np N C C2. assert (Ah : ~ In bslash h) by (intros H; apply N, in_or_app; now left).
  assert (Ap : ~ In bslash p) by (intros H; apply N, in_or_app; now right).
  rewrite parse_location_meaning.
  2:{ apply tidy_plain. intros H. apply in_app_or in H as [H|[H|[H|H]]]; [now apply Ah|discriminate|discriminate|now apply Ap]. }
  assert (G : forall h raw cur, ~ In bslash h -> ~ In colon h ->
     between raw cur (h ++ bs "::" ++ p) = (raw ++ h, cur ++ h) :: between [] [] p).
  { clear. induction h as [|c h IH]; intros raw cur H1 H2; [cbn [app]; now rewrite !app_nil_r|]. cbn [app].
    rewrite between_other; [|intros ->; apply H1; now left|intros ->; apply H2; now left].
    rewrite IH; [now rewrite <- !app_assoc|intros H; apply H1; now right|intros H; apply H2; now right]. }
  rewrite G by assumption. rewrite between_plain by assumption. cbn [app meaning snd]. unfold path_of. cbn [fst snd].
  rewrite network_none, slashes_id by assumption. destruct h; [contradiction|]. destruct p; [contradiction|]. reflexivity.
Qed.
Print Assumptions C50_plain_host_and_path.

(** With quoting every host and every path can be written (a backslash in a path becomes a slash, as on Windows). *)
Theorem C50_quoted_host_and_path : forall (host path : bytes),
  host <> [] -> path <> [] -> ~ In bslash path ->
  (forall h, host <> h ++ [bslash; bslash]) -> (forall n h, host <> repeat bslash (S n) ++ nl :: h) ->
  parse_location (quote host ++ bs "::" ++ quote path) = Remote host path.
Proof.
  intros h p Hh Hp Np H1 H2. rewrite parse_location_meaning by (now apply tidy_quoted).
  rewrite between_quote. change (bs "::" ++ quote p) with (colon :: colon :: quote p). rewrite between_2. cbn [andb orb]. 
  change (Ascii.eqb colon colon && Ascii.eqb colon colon) with true. change (Ascii.eqb colon bslash && _) with false. cbv iota.
  rewrite <- (app_nil_r (quote p)), between_quote. cbn [app between meaning snd].
  destruct h as [|c h]; [contradiction|]. destruct p as [|d p]; [contradiction|]. f_equal. unfold path_of. cbn [fst snd].
  rewrite slashes_id by assumption. destruct (network (quote (d :: p))) eqn:N; [|reflexivity]. exfalso.
  unfold network in N. apply andb_true_iff in N as (N & _). apply andb_true_iff in N as (N & _). apply starts_with_spec in N as (t & N).
  now apply (quote_no_bs_bs (d :: p) Np [] t).
Qed.
Print Assumptions C50_quoted_host_and_path.

(** A second separator, or a part missing, is an error. *)
Theorem C50_too_many_or_too_few : forall (h p q : bytes),
  ~ In bslash (h ++ p ++ q) -> ~ In colon (h ++ p ++ q) ->
  parse_location (h ++ bs "::" ++ p ++ bs "::" ++ q) = TooMany
  /\ parse_location (bs "::" ++ p) = NoHost
  /\ (h <> [] -> parse_location (h ++ bs "::") = NoPath).
Proof.
  intros h p q N C.
  assert (G : forall h raw cur rest, ~ In bslash h -> ~ In colon h ->
     between raw cur (h ++ bs "::" ++ rest) = (raw ++ h, cur ++ h) :: between [] [] rest).
  { clear. induction h as [|c h IH]; intros raw cur rest H1 H2; [cbn [app]; now rewrite !app_nil_r|]. cbn [app].
    rewrite between_other; [|intros ->; apply H1; now left|intros ->; apply H2; now left].
    rewrite IH; [now rewrite <- !app_assoc|intros H; apply H1; now right|intros H; apply H2; now right]. }
  assert (Hh : ~ In bslash h /\ ~ In colon h) by (split; intros H; [apply N|apply C]; apply in_or_app; now left).
  assert (Hp : ~ In bslash p /\ ~ In colon p) by (split; intros H; [apply N|apply C]; apply in_or_app; right; apply in_or_app; now left).
  assert (Hq : ~ In bslash q /\ ~ In colon q) by (split; intros H; [apply N|apply C]; apply in_or_app; right; apply in_or_app; now right).
  assert (K : ~ In bslash (bs "::")) by (intros [H|[H|[]]]; discriminate).
  assert (P : forall s, ~ In bslash s /\ ~ In colon s -> between [] [] s = [(s, s)]).
  { intros s (A & B). apply between_plain; [assumption|]. intros a b ->. apply B. apply in_or_app. right. now left. }
  split; [|split].
  - rewrite parse_location_meaning.
    + rewrite G by tauto. rewrite G by tauto. rewrite P by tauto. reflexivity.
    + apply tidy_plain. intros H. repeat (apply in_app_or in H as [H|H]); tauto.
  - rewrite parse_location_meaning; [|apply tidy_plain; intros H; apply in_app_or in H as [H|H]; tauto].
    change (bs "::" ++ p) with ([] ++ bs "::" ++ p). rewrite G by tauto. rewrite P by tauto. reflexivity.
  - intros E. rewrite parse_location_meaning; [|apply tidy_plain; intros H; apply in_app_or in H as [H|H]; tauto].
    rewrite <- (app_nil_r (bs "::")). rewrite G by tauto. cbn [app between meaning snd]. now destruct h.
Qed.
Print Assumptions C50_too_many_or_too_few.

(** ** Exceptions *)
(** a host which ends with two backslashes loses one; *)
Theorem C50_backslashes_at_the_end_of_the_host_refuted :
  ~ (forall host path, host <> [] -> path <> [] -> ~ In bslash path ->
       parse_location (quote host ++ bs "::" ++ quote path) = Remote host path).
Proof.
  intros H. specialize (H [chr 97; bslash; bslash] (bs "p")). assert (X : ~ In bslash (bs "p")) by (intros [X|[]]; discriminate).
  specialize (H ltac:(discriminate) ltac:(discriminate) X). vm_compute in H. discriminate.
Qed.
Print Assumptions C50_backslashes_at_the_end_of_the_host_refuted.
(** a remote path of two backslashes makes it a local one; two backslashes alone are no location at all; *)
Theorem C50_path_of_backslashes_refuted :
  parse_location (bs "host::" ++ [bslash; bslash]) = Local (bs "host/") /\ parse_location [bslash; bslash] = NoLocation.
Proof. split; vm_compute; reflexivity. Qed.
Print Assumptions C50_path_of_backslashes_refuted.
(** backslashes and a newline in front are lost, here with the host; *)
Theorem C50_newline_refuted : parse_location ([bslash; bslash; nl] ++ bs "::p") = Local (bs "p").
Proof. vm_compute. reflexivity. Qed.
Print Assumptions C50_newline_refuted.
(** and no path with a backslash in it can be named at all, although it may well be one on a POSIX system. *)
Theorem C50_no_path_with_a_backslash_refuted : forall (desc host path : bytes),
  parse_location desc = Local path \/ parse_location desc = Remote host path -> ~ In bslash path.
Proof.
  assert (T : forall s, ~ In bslash (to_path s)).
  { intros s. unfold to_path. assert (M : forall l, ~ In bslash (map (fun c => if Ascii.eqb c bslash then slash else c) l)).
    { intros l H. apply in_map_iff in H as (c & E & _). destruct (Ascii.eqb c bslash) eqn:X; [discriminate|]. subst c. discriminate. }
    destruct (is_unc_path s); [intros [H|H]; [discriminate|]|intros H]; now apply M in H. }
  intros d h p. unfold parse_location. destruct (stitch (re_split [] 0 d)) as [|x [|y [|z l]]].
  - intros [H|H]; discriminate.
  - intros [H|H]; [|discriminate]. injection H as <-. apply T.
  - destruct x; [intros [H|H]; discriminate|]. destruct y as [|y ys]; [intros [H|H]; discriminate|]. intros [H|H]; [discriminate|].
    injection H as _ <-. apply T.
  - intros [H|H]; discriminate.
Qed.
Print Assumptions C50_no_path_with_a_backslash_refuted.

(** ** Examples *)
Example ex_quoted : parse_location (quote (bs "u@h:22") ++ bs "::" ++ quote (bs "/data/a::b")) = Remote (bs "u@h:22") (bs "/data/a::b").
Proof.
  apply C50_quoted_host_and_path; try discriminate.
  - intros H. vm_compute in H. repeat destruct H as [H|H]; discriminate || contradiction.
  - intros h H. apply (f_equal (fun l => last l nl)) in H. change [bslash; bslash] with ([bslash] ++ [bslash]) in H.
    rewrite (app_assoc h), last_last in H. vm_compute in H. discriminate.
Qed.
Example ex_network : parse_location ([bslash; bslash] ++ bs "server" ++ [bslash] ++ bs "share") = Local (bs "//server/share").
Proof. reflexivity. Qed.
Example ex_tidy : tidy (quote (bs "u@h:" ++ [bslash] ++ bs "x") ++ [colon; colon] ++ quote (bs "/a:b")).
Proof.
  apply tidy_quoted; try discriminate.
  - intros H. vm_compute in H. repeat destruct H as [H|H]; discriminate || contradiction.
  - intros h H. apply (f_equal (fun l => last l nl)) in H. change [bslash; bslash] with ([bslash] ++ [bslash]) in H.
    rewrite (app_assoc h), last_last in H. vm_compute in H. discriminate.
Qed.

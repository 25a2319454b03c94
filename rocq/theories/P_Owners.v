(** C32: whose files are these? *)
From Coq Require Import List ZArith Bool Ascii Lia.
From Verif Require Import Base L_Base M_Owners S_Owners L_Owners.
Import List ListNotations.
Local Open Scope Z_scope.

(** any cache which the process can have, whatever was asked before the mapping was set up *)
Definition warm (pw : passwd) (c : cache) : Prop :=
  exists m rs, c = snd (serve_all m pw rs no_cache).

Lemma warm_coh pw c : one_to_one pw -> warm pw c -> coh pw c.
Proof. intros O (m & rs & ->). apply serve_all_ok; [exact O|]. apply coh_empty. Qed.

Lemma serve_all_app m pw rs1 rs2 c : serve_all m pw (rs1 ++ rs2) c =
  (fst (serve_all m pw rs1 c) ++ fst (serve_all m pw rs2 (snd (serve_all m pw rs1 c))),
   snd (serve_all m pw rs2 (snd (serve_all m pw rs1 c)))).
Proof.
  revert c. induction rs1 as [|r rs1 IH]; intros c; cbn [serve_all app].
  - cbn. now destruct (serve_all m pw rs2 c).
  - destruct (serve m pw r c) as [a c1]. rewrite IH.
    destruct (serve_all m pw rs1 c1) as [l c2]. reflexivity.
Qed.

(** Without options: a file's owner is the user of the same name if there is one here, and keeps its id
    otherwise; whatever was asked before. *)
Theorem C32_default_owner : forall pw rs id name r,
  one_to_one pw -> by_default pw id name r ->
  exists c, init_owners_mapping pw (command_line None false) no_cache = Some (Default, c) /\
    fst (map_owner Default pw id name (snd (serve_all Default pw rs c))) = or_same id r.
Proof.
  intros pw rs id name r O B. exists no_cache. split; [reflexivity|].
  pose proof (serve_all_ok pw O Default rs no_cache (coh_empty pw)) as [_ K].
  pose proof (map_owner_ok pw O Default id name _ K) as [E _]. rewrite E. f_equal.
  symmetry. now apply (by_default_ok pw O).
Qed.

(** An entry of an ACL is kept, with the id of the user of the same name, exactly if that user exists (or
    if the entry has no name); the entries stay in order. *)
Inductive acl_by (f : Z -> option bytes -> option Z -> Prop) : list acl_entry -> list (Z * Z) -> Prop :=
| AB_nil : acl_by f [] []
| AB_keep id name p z es out : f id name (Some z) -> acl_by f es out ->
    acl_by f ((id, name, p) :: es) ((z, p) :: out)
| AB_drop id name p es out : f id name None -> acl_by f es out -> acl_by f ((id, name, p) :: es) out.

Lemma acl_by_map pw m es : forall f : Z -> option bytes -> option Z -> Prop,
  (forall id name r, r = map_acl0 pw m id name -> f id name r) ->
  acl_by f es (flat_map (fun '(id, name, p) =>
    match map_acl0 pw m id name with Some z => [(z, p)] | None => [] end) es).
Proof.
  intros f F. induction es as [|[[id name] p] es IH]; [apply AB_nil|]. cbn [flat_map].
  destruct (map_acl0 pw m id name) as [z|] eqn:E.
  - cbn. apply AB_keep; [|exact IH]. now apply F.
  - cbn. apply AB_drop; [|exact IH]. now apply F.
Qed.

Theorem C32_default_acl : forall pw rs es,
  one_to_one pw ->
  acl_by (by_default pw) es (fst (map_entries Default pw es (snd (serve_all Default pw rs no_cache)))).
Proof.
  intros pw rs es O.
  pose proof (serve_all_ok pw O Default rs no_cache (coh_empty pw)) as [_ K].
  destruct (map_entries_ok pw O Default es _ K) as [E _]. rewrite E.
  apply acl_by_map. intros id name r ->. now apply (by_default_ok pw O).
Qed.

(** The policy leaves nothing open: there is exactly one answer. *)
Theorem C32_default_total : forall pw id name, one_to_one pw ->
  exists r, by_default pw id name r /\ forall r', by_default pw id name r' -> r' = r.
Proof.
  intros pw id name O. exists (map_acl0 pw Default id name). split; [now apply (proj2 (by_default_ok pw O id name _))|].
  intros r' H. exact (proj1 (by_default_ok pw O id name r') H).
Qed.

(** With a mapping file: every file made of blank lines and "old:new" lines is understood; the last entry
    for somebody counts; and the owner is found by the rules of [by_file], whatever was asked before. *)
Theorem C32_mapping_file : forall pw ls es rs0 m0 rs id name r,
  one_to_one pw -> file_says ls es -> join_with [nl] ls <> [] -> by_file pw es id name r ->
  (forall l, In l ls -> ~ In nl l) ->
  exists m c, init_owners_mapping pw (command_line (Some (join_with [nl] ls)) false)
                (snd (serve_all m0 pw rs0 no_cache)) = Some (m, c) /\
    fst (map_owner m pw id name (snd (serve_all m pw rs c))) = or_same id r /\
    fst (map_acl m pw id name (snd (serve_all m pw rs c))) = r.
Proof.
  intros pw ls es rs0 m0 rs id name r O F NE B NN.
  pose proof (serve_all_ok pw O m0 rs0 no_cache (coh_empty pw)) as [_ K0].
  destruct (add_lines_ok pw O ls es F (mk_dicts [] []) _ [] (dicts_say_nil pw) K0) as (d & c & A & D & K).
  exists (Defined d), c.
  assert (I : init_owners_mapping pw (command_line (Some (join_with [nl] ls)) false)
                (snd (serve_all m0 pw rs0 no_cache)) =
              init_mapping pw (Some (join_with [nl] ls)) false (snd (serve_all m0 pw rs0 no_cache)))
    by reflexivity.
  rewrite I. unfold init_mapping.
  assert (P : parse_mapping pw (join_with [nl] ls) (snd (serve_all m0 pw rs0 no_cache)) = Some (d, c)).
  { unfold parse_mapping. rewrite split_join; [exact A| |exact NN].
    intros ->. now apply NE. }
  destruct (join_with [nl] ls) as [|ch t]; [easy|]. rewrite P. split; [reflexivity|].
  pose proof (serve_all_ok pw O (Defined d) rs c K) as [_ K1].
  pose proof (map_owner_ok pw O (Defined d) id name _ K1) as [E1 _].
  pose proof (map_acl_ok pw O (Defined d) id name _ K1) as [E2 _].
  apply (by_file_ok pw O d es id name r D) in B. rewrite E1, E2, <- B. now split.
Qed.

Theorem C32_mapping_file_total : forall pw es id name, one_to_one pw ->
  exists r, by_file pw es id name r /\ forall r', by_file pw es id name r' -> r' = r.
Proof.
  intros pw es id name O.
  assert (D : exists d, dicts_say pw d es).
  { induction es as [|[a b] es IH] using rev_ind; [eexists; apply dicts_say_nil|].
    destruct IH as [d D]. eexists. apply (dicts_say_add pw d es a b D). }
  destruct D as [d D]. exists (map_acl0 pw (Defined d) id name). split; [now apply (proj2 (by_file_ok pw O d es id name _ D))|].
  intros r' H. exact (proj1 (by_file_ok pw O d es id name r' D) H).
Qed.

(** A line which has no colon, or more than one, stops the program. *)
Theorem C32_bad_line : forall pw l1 l l2 c,
  strip l <> [] -> List.length (split_on (chr 58) (strip l)) <> 2%nat ->
  add_lines pw (l1 ++ l :: l2) c = None.
Proof.
  intros pw l1 l l2 c NE B. revert c. induction l1 as [|x l1 IH]; intros c; cbn [add_lines app].
  - destruct c as [d c]. unfold add_line. destruct (strip l) as [|ch t]; [easy|].
    destruct (split_on (chr 58) (ch :: t)) as [|a [|b [|e r]]]; try reflexivity. now destruct B.
  - destruct (add_line pw x c); [apply IH|reflexivity].
Qed.

(** The numerical map keeps every id. *)
Theorem C32_numerical : forall pw id name c text,
  init_mapping pw text true c = Some (Numerical, c) /\
  fst (map_owner Numerical pw id name c) = id /\ fst (map_acl Numerical pw id name c) = Some id.
Proof. intros pw id name c text. repeat split. Qed.

(** The caches are invisible: every answer is the one the database gives, in any order of questions. *)
Theorem C32_caches_invisible : forall pw m rs1 q rs2,
  one_to_one pw ->
  fst (serve m pw q (snd (serve_all m pw rs1 no_cache))) = fst (serve m pw q (snd (serve_all m pw rs2 no_cache))).
Proof.
  intros pw m rs1 q rs2 O.
  pose proof (serve_all_ok pw O m rs1 no_cache (coh_empty pw)) as [_ K1].
  pose proof (serve_all_ok pw O m rs2 no_cache (coh_empty pw)) as [_ K2].
  destruct (serve_ok pw O m q _ K1) as [-> _]. now destruct (serve_ok pw O m q _ K2) as [-> _].
Qed.
Theorem C32_names_and_ids : forall pw m rs n u,
  one_to_one pw -> is_user pw n u ->
  fst (uid2uname pw u (snd (serve_all m pw rs no_cache))) = Some n /\
  fst (uname2uid pw n (snd (serve_all m pw rs no_cache))) = Some u.
Proof.
  intros pw m rs n u O U.
  pose proof (serve_all_ok pw O m rs no_cache (coh_empty pw)) as [_ K].
  destruct (uid2uname_ok pw O _ u K) as [-> _]. destruct (uname2uid_ok pw O _ n K) as [-> _].
  split; [now apply getpwuid_spec|now apply getpwnam_spec].
Qed.

(** * Where the program differs from its manual *)

(** --preserve-numerical-ids has no effect at all: the option is stored as "preserve_numerical_ids", the
    program asks for "preserve_num_ids". *)
Theorem C32_preserve_numerical_ids_refuted : forall pw text c,
  init_owners_mapping pw (command_line text true) c = init_owners_mapping pw (command_line text false) c.
Proof. intros pw [text|] c; reflexivity. Qed.
Example C32_preserve_numerical_ids_ignored :
  exists m c, init_owners_mapping [(bs "joe", 1000)] (command_line None true) no_cache = Some (m, c) /\
    fst (map_owner m [(bs "joe", 1000)] 500 (Some (bs "joe")) c) = 1000.
Proof. exists Default, no_cache. split; reflexivity. Qed.

(** "If a name or id is not listed": the entry "500:0" isn't used for a file of joe (500) if there is a joe
    on the destination. *)
Theorem C32_listed_id_refuted :
  exists m c, init_owners_mapping [(bs "joe", 1000)] (command_line (Some (bs "500:0")) false) no_cache = Some (m, c) /\
    fst (map_owner m [(bs "joe", 1000)] 500 (Some (bs "joe")) c) = 1000 /\
    fst (map_owner m [(bs "joe", 1000)] 500 None c) = 0.
Proof. eexists _, _. split; [reflexivity|]. split; reflexivity. Qed.

(** with a mapping file, an ACL entry without a name is dropped unless its id is listed, though the same
    entry is kept without the file *)
Theorem C32_nameless_acl_refuted :
  exists m c, init_owners_mapping [] (command_line (Some (bs "1:2")) false) no_cache = Some (m, c) /\
    fst (map_entries m [] [(500, None, 7)] c) = [] /\
    fst (map_entries Default [] [(500, None, 7)] c) = [(500, 7)].
Proof. eexists _, _. split; [reflexivity|]. split; reflexivity. Qed.

(** an unknown name on the right side isn't an error; the owner keeps his id *)
Theorem C32_unknown_target_refuted :
  exists m c, init_owners_mapping [] (command_line (Some (bs "joe:nobody")) false) no_cache = Some (m, c) /\
    fst (map_owner m [] 500 (Some (bs "joe")) c) = 500.
Proof. eexists _, _. split; reflexivity. Qed.

(** two names for one id: the answer for the id depends on what was asked before *)
Theorem C32_shared_id_refuted :
  let pw := [(bs "root", 0); (bs "toor", 0)] in
  fst (serve Default pw (AskName 0) no_cache) = AName (Some (bs "root")) /\
  fst (serve Default pw (AskName 0) (snd (serve_all Default pw [AskId (bs "toor")] no_cache))) =
    AName (Some (bs "toor")).
Proof. split; reflexivity. Qed.

(** * The hypotheses can be met *)
Definition db : passwd := [(bs "root", 0); (bs "joe", 1000); (bs "ann", 1001)].
Example db_ok : one_to_one db.
Proof.
  split; repeat constructor; cbn; intros H; repeat (destruct H as [H|H]; [discriminate|]); easy.
Qed.
Definition map_file := [bs "  joe:ann "; []; bs "500:1000"; bs "joe:0"].
Definition map_entries_of := [(ByName (bs "joe"), ByName (bs "ann")); (ById 500, ById 1000); (ByName (bs "joe"), ById 0)].
Ltac name_ok := split; [cbn; intros c H; repeat (destruct H as [<-|H]; [repeat split; [|discriminate|discriminate]; intros B; repeat (destruct B as [B|B]; [discriminate|]); easy|]); easy|].
Lemma plain_joe : name_like (ByName (bs "joe")).
Proof. name_ok. exists (chr 106). repeat split; [now left| |discriminate|discriminate|discriminate]. cbn. lia. Qed.
Lemma plain_ann : name_like (ByName (bs "ann")).
Proof. name_ok. exists (chr 97). repeat split; [now left| |discriminate|discriminate|discriminate]. cbn. lia. Qed.
Example map_file_ok : file_says map_file map_entries_of.
Proof.
  unfold map_file, map_entries_of.
  apply (F_cons _ [_] _ [_; _]).
  - apply (L_entry (bs "  ") (ByName (bs "joe")) (ByName (bs "ann")) (bs " ")); try apply plain_joe; try apply plain_ann;
      repeat constructor; cbn; unfold blank; cbn; tauto.
  - apply (F_cons _ []); [apply L_blank; constructor|].
    apply (F_cons _ [_] _ [_]).
    + apply (L_entry [] (ById 500) (ById 1000) []); now constructor.
    + apply (F_cons _ [_] _ []); [|apply F_nil].
      apply (L_entry [] (ByName (bs "joe")) (ById 0) []); try apply plain_joe; now constructor.
Qed.
(** joe becomes root (the last entry), ann stays ann, an unknown user with id 500 becomes 1000 *)
Example map_file_cases :
  by_file db map_entries_of 1000 (Some (bs "joe")) (Some 0) /\
  by_file db map_entries_of 7 (Some (bs "ann")) (Some 1001) /\
  by_file db map_entries_of 500 (Some (bs "eve")) (Some 1000) /\
  by_file db map_entries_of 501 (Some (bs "eve")) None.
Proof.
  assert (N : no_user db (bs "eve")). { intros u H. cbn in H. repeat (destruct H as [H|H]; [discriminate|]). easy. }
  split; [|split; [|split]].
  - apply (B_name _ _ _ _ (ById 0)); [discriminate| |apply H_id].
    exists [(ByName (bs "joe"), ByName (bs "ann")); (ById 500, ById 1000)], []. split; [reflexivity|]. intros d [].
  - apply B_same; [discriminate| |right; right; now left].
    intros d H. cbn in H. repeat (destruct H as [H|H]; [discriminate|]). easy.
  - apply (B_id _ _ _ _ (ById 1000)); [right; exists (bs "eve"); repeat split; [discriminate| |exact N]| |apply H_id].
    + intros d H. cbn in H. repeat (destruct H as [H|H]; [discriminate|]). easy.
    + exists [(ByName (bs "joe"), ByName (bs "ann"))], [(ByName (bs "joe"), ById 0)]. split; [reflexivity|].
      intros d H. cbn in H. repeat (destruct H as [H|H]; [discriminate|]). easy.
  - apply B_none; [right; exists (bs "eve"); repeat split; [discriminate| |exact N]|].
    + intros d H. cbn in H. repeat (destruct H as [H|H]; [discriminate|]). easy.
    + intros d H. cbn in H. repeat (destruct H as [H|H]; [discriminate|]). easy.
Qed.
Example bad_line_ok : strip (bs "joe") <> [] /\ List.length (split_on (chr 58) (strip (bs "joe"))) <> 2%nat.
Proof. split; discriminate. Qed.

Print Assumptions C32_default_owner.
Print Assumptions C32_default_acl.
Print Assumptions C32_default_total.
Print Assumptions C32_mapping_file.
Print Assumptions C32_mapping_file_total.
Print Assumptions C32_bad_line.
Print Assumptions C32_numerical.
Print Assumptions C32_caches_invisible.
Print Assumptions C32_names_and_ids.
Print Assumptions C32_preserve_numerical_ids_refuted.
Print Assumptions C32_listed_id_refuted.
Print Assumptions C32_nameless_acl_refuted.
Print Assumptions C32_unknown_target_refuted.
Print Assumptions C32_shared_id_refuted.

From Coq Require Import List ZArith Bool Ascii Lia.
From Verif Require Import Base L_Base M_Location S_Location.
Import List ListNotations.
Local Open Scope Z_scope.

Definition is_brace (c : ascii) : bool := Ascii.eqb c obrace || Ascii.eqb c cbrace.
Lemma bd_cons c s : braces_doubled (c :: s) = (if is_brace c then [c; c] else [c]) ++ braces_doubled s.
Proof. reflexivity. Qed.
Lemma bd_case c s : (c = obrace /\ braces_doubled (c :: s) = obrace :: obrace :: braces_doubled s)
  \/ (c = cbrace /\ braces_doubled (c :: s) = cbrace :: cbrace :: braces_doubled s)
  \/ (Ascii.eqb c obrace = false /\ Ascii.eqb c cbrace = false /\ braces_doubled (c :: s) = c :: braces_doubled s).
Proof.
  rewrite bd_cons. unfold is_brace. destruct (Ascii.eqb c obrace) eqn:A; [apply Ascii.eqb_eq in A; subst; now left|].
  destruct (Ascii.eqb c cbrace) eqn:B; [apply Ascii.eqb_eq in B; subst; right; now left|]. right; right. now split.
Qed.

(** ** what is found *)
Fixpoint ends_open (prev : bool) (s : bytes) : bool :=
  match s with [] => prev | c :: s' => ends_open (Ascii.eqb c obrace) s' end.
Lemma ends_open_snoc s prev : ends_open prev s = true -> (s = [] /\ prev = true) \/ exists a, s = a ++ [obrace].
Proof.
  revert prev. induction s as [|c s IH]; intros prev H; [now left|]. cbn [ends_open] in H. apply IH in H as [(-> & H)|(a & ->)].
  - apply Ascii.eqb_eq in H. subst c. right. now exists [].
  - right. now exists (c :: a).
Qed.

Lemma find_fields_text s : forall prev rest,
  find_fields prev None (braces_doubled s ++ rest) = find_fields (ends_open prev s) None rest.
Proof.
  induction s as [|c s IH]; intros prev rest; [reflexivity|]. cbn [ends_open].
  destruct (bd_case c s) as [(-> & E)|[(-> & E)|(A & B & E)]]; rewrite E; cbn [app].
  - cbn [find_fields]. change (Ascii.eqb obrace obrace) with true. cbv iota. rewrite IH. reflexivity.
  - cbn [find_fields]. change (Ascii.eqb cbrace obrace) with false. change (Ascii.eqb cbrace cbrace) with true. cbn [app]. now rewrite IH.
  - cbn [find_fields]. rewrite A, B. now rewrite IH.
Qed.

Lemma starts_here f : forall s rest, forallb (fun c => negb (is_brace c)) f = true -> (forall c r, rest = c :: r -> c = obrace) ->
  starts_with (f ++ [cbrace]) (braces_doubled s ++ rest) = true -> exists t, s = f ++ cbrace :: t.
Proof.
  induction f as [|x f IH]; intros s rest Hf Hr H.
  - destruct s as [|c s].
    + cbn [braces_doubled flat_map app] in H. destruct rest as [|c r]; [discriminate|]. rewrite (Hr c r eq_refl) in H. discriminate.
    + destruct (bd_case c s) as [(-> & E)|[(-> & E)|(A & B & E)]]; rewrite E in H; cbn [app starts_with] in H.
      * discriminate.
      * now exists s.
      * rewrite Ascii.eqb_sym, B in H. discriminate.
  - cbn [forallb] in Hf. apply andb_true_iff in Hf as (Hx & Hf). apply negb_true_iff in Hx. unfold is_brace in Hx. apply orb_false_iff in Hx as (X1 & X2).
    destruct s as [|c s].
    + cbn [braces_doubled flat_map app] in H. destruct rest as [|c r]; [discriminate|]. rewrite (Hr c r eq_refl) in H. cbn [starts_with] in H. rewrite X1 in H. discriminate.
    + destruct (bd_case c s) as [(-> & E)|[(-> & E)|(A & B & E)]]; rewrite E in H; cbn [app starts_with] in H.
      * rewrite X1 in H. discriminate.
      * rewrite X2 in H. discriminate.
      * destruct (Ascii.eqb x c) eqn:Q; [|discriminate]. apply Ascii.eqb_eq in Q. subst c. apply IH in H as (t & ->); [|assumption|assumption]. now exists t.
Qed.
Lemma known_braceless f : In f known_fields -> forallb (fun c => negb (is_brace c)) f = true /\ exists c f', f = c :: f'.
Proof. intros [<-|[<-|[<-|[<-|[]]]]]; (split; [reflexivity|]); eexists; eexists; reflexivity. Qed.

Lemma field_here_none s : (forall f, In f known_fields -> starts_with (obrace :: f ++ [cbrace]) s = false) -> field_here s = [].
Proof.
  intros H. unfold field_here. induction known_fields as [|f l IH]; [reflexivity|]. cbn [filter]. rewrite H by now left. apply IH. intros g G. apply H. now right.
Qed.
Lemma find_known_text s : forall rest, (forall f a b, In f known_fields -> s <> a ++ [obrace] ++ f ++ [cbrace] ++ b) ->
  (forall c r, rest = c :: r -> c = obrace) -> find_known (braces_doubled s ++ rest) = find_known rest.
Proof.
  induction s as [|c s IH]; intros rest Hs Hr; [reflexivity|].
  assert (Hs' : forall f a b, In f known_fields -> s <> a ++ [obrace] ++ f ++ [cbrace] ++ b).
  { intros f a b Hf ->. now apply (Hs f (c :: a) b). }
  destruct (bd_case c s) as [(-> & E)|[(-> & E)|(A & B & E)]]; rewrite E; cbn [app].
  - cbn [find_known]. rewrite (field_here_none (obrace :: obrace :: _)), (field_here_none (obrace :: _)).
    + cbn [app]. now apply IH.
    + intros f Hf. cbn [starts_with]. change (Ascii.eqb obrace obrace) with true. cbn [andb].
      destruct (starts_with (f ++ [cbrace]) (braces_doubled s ++ rest)) eqn:X; [|reflexivity]. exfalso.
      apply starts_here in X as (t & ->); [|now apply known_braceless|assumption]. now apply (Hs f [] t).
    + intros f Hf. destruct (known_braceless f Hf) as (F & c & f' & ->). cbn [app starts_with]. cbn [forallb] in F. apply andb_true_iff in F as (F & _).
      apply negb_true_iff in F. unfold is_brace in F. apply orb_false_iff in F as (F & _). rewrite F. reflexivity.
  - cbn [find_known]. rewrite !field_here_none by (intros f _; reflexivity). cbn [app]. now apply IH.
  - cbn [find_known]. rewrite field_here_none; [cbn [app]; now apply IH|]. intros f _. cbn [starts_with]. rewrite Ascii.eqb_sym, A. reflexivity.
Qed.

Definition fields_of (parts : list schema_part) : list bytes :=
  flat_map (fun p => match p with Text _ => [] | Host => [bs "h"] | Version c => [chr 86 :: [c]] end) parts.

Lemma starts_with_brace parts : (forall s l, parts = Text s :: l -> False) -> forall c r, flat_map written parts = c :: r -> c = obrace.
Proof.
  intros H c r E. destruct parts as [|[s| |v] l]; [discriminate|now destruct (H s l)| |]; cbn in E; injection E as <- _; reflexivity.
Qed.

Lemma find_fields_parts parts : Forall good_part parts -> no_texts_in_a_row parts ->
  find_fields false None (flat_map written parts) = fields_of parts.
Proof.
  induction parts as [|p parts IH]; intros G R; [reflexivity|]. inversion G as [|? ? Gp Gl]; subst.
  assert (R' : no_texts_in_a_row parts) by (destruct p as [s| |v]; cbn [no_texts_in_a_row] in R; try exact R; destruct parts as [|[s'| |v'] l]; try exact R; contradiction).
  cbn [flat_map]. destruct p as [s| |v]; cbn [written].
  - rewrite find_fields_text. destruct Gp as (_ & Ge). destruct (ends_open false s) eqn:X.
    + apply ends_open_snoc in X as [(_ & X)|(a & ->)]; [discriminate|]. now destruct (Ge a).
    + now apply IH.
  - change (find_fields false None (bs "{h}" ++ flat_map written parts)) with (bs "h" :: find_fields false None (flat_map written parts)). rewrite IH by assumption. reflexivity.
  - change (fields_of (Version v :: parts)) with ((chr 86 :: [v]) :: fields_of parts). rewrite <- IH by assumption. destruct Gp as [<-|[<-|[<-|[]]]]; reflexivity.
Qed.
Lemma find_known_parts parts : Forall good_part parts -> no_texts_in_a_row parts ->
  find_known (flat_map written parts) = fields_of parts.
Proof.
  induction parts as [|p parts IH]; intros G R; [reflexivity|]. inversion G as [|? ? Gp Gl]; subst.
  assert (R' : no_texts_in_a_row parts) by (destruct p as [s| |v]; cbn [no_texts_in_a_row] in R; try exact R; destruct parts as [|[s'| |v'] l]; try exact R; contradiction).
  cbn [flat_map]. destruct p as [s| |v]; cbn [written].
  - rewrite find_known_text; [now apply IH|apply Gp|]. apply starts_with_brace. intros s' l ->. exact R.
  - change (find_known (bs "{h}" ++ flat_map written parts)) with (bs "h" :: find_known (flat_map written parts)). rewrite IH by assumption. reflexivity.
  - change (fields_of (Version v :: parts)) with ((chr 86 :: [v]) :: fields_of parts). rewrite <- IH by assumption. destruct Gp as [<-|[<-|[<-|[]]]]; reflexivity.
Qed.

Lemma eqb_list_refl l : eqb_list l l = true.
Proof. induction l as [|x l IH]; [reflexivity|]. cbn. now rewrite beq_bytes_refl. Qed.
Lemma eqb_list_eq l : forall m, eqb_list l m = true -> l = m.
Proof.
  induction l as [|x l IH]; intros [|y m] H; try discriminate; [reflexivity|]. cbn in H. apply andb_true_iff in H as (A & B).
  apply beq_bytes_true in A. apply IH in B. congruence.
Qed.

Section Format.
Variables host Vx Vy Vz : bytes.
Variable other : bytes -> option bytes.

Definition prepend (v : bytes) (r : filled) : filled := match r with Filled x => Filled (v ++ x) | _ => r end.
Lemma format_text s : forall rest, format host Vx Vy Vz other None (braces_doubled s ++ rest) = prepend s (format host Vx Vy Vz other None rest).
Proof.
  induction s as [|c s IH]; intros rest; [cbn [braces_doubled flat_map app]; destruct (format host Vx Vy Vz other None rest); reflexivity|].
  destruct (bd_case c s) as [(-> & E)|[(-> & E)|(A & B & E)]]; rewrite E; cbn [app].
  - cbn [format]. change (Ascii.eqb obrace obrace) with true. cbn [orb]. cbv iota. rewrite IH. destruct (format host Vx Vy Vz other None rest); reflexivity.
  - cbn [format]. change (Ascii.eqb cbrace obrace) with false. change (Ascii.eqb cbrace cbrace) with true. cbn [orb]. cbv iota. rewrite IH.
    destruct (format host Vx Vy Vz other None rest); reflexivity.
  - cbn [format]. rewrite A, B. cbn [orb]. rewrite IH. destruct (format host Vx Vy Vz other None rest); reflexivity.
Qed.
Lemma format_parts parts : Forall good_part parts ->
  format host Vx Vy Vz other None (flat_map written parts) = Filled (flat_map (stands_for host Vx Vy Vz) parts).
Proof.
  induction parts as [|p parts IH]; intros G; [reflexivity|]. inversion G as [|? ? Gp Gl]; subst. cbn [flat_map].
  destruct p as [s| |v]; cbn [written].
  - rewrite format_text, IH by assumption. reflexivity.
  - assert (X : format host Vx Vy Vz other None (bs "{h}" ++ flat_map written parts) = prepend host (format host Vx Vy Vz other None (flat_map written parts))).
    { set (r := flat_map written parts). change (format host Vx Vy Vz other None (bs "{h}" ++ r)) with
        (match format host Vx Vy Vz other None r with Filled x => Filled (host ++ x) | r => r end). now destruct (format host Vx Vy Vz other None r). }
    rewrite X, IH by assumption. reflexivity.
  - assert (X : format host Vx Vy Vz other None ((bs "{V" ++ [v] ++ bs "}") ++ flat_map written parts)
                = prepend (stands_for host Vx Vy Vz (Version v)) (format host Vx Vy Vz other None (flat_map written parts))).
    { set (r := flat_map written parts). change (format host Vx Vy Vz other None ((bs "{V" ++ [v] ++ bs "}") ++ r) = prepend (stands_for host Vx Vy Vz (Version v)) (format host Vx Vy Vz other None r)).
      destruct Gp as [<-|[<-|[<-|[]]]].
      - change (format host Vx Vy Vz other None ((bs "{V" ++ [chr 120] ++ bs "}") ++ r)) with (match format host Vx Vy Vz other None r with Filled x => Filled (Vx ++ x) | r => r end). now destruct (format host Vx Vy Vz other None r).
      - change (format host Vx Vy Vz other None ((bs "{V" ++ [chr 121] ++ bs "}") ++ r)) with (match format host Vx Vy Vz other None r with Filled x => Filled (Vy ++ x) | r => r end). now destruct (format host Vx Vy Vz other None r).
      - change (format host Vx Vy Vz other None ((bs "{V" ++ [chr 122] ++ bs "}") ++ r)) with (match format host Vx Vy Vz other None r with Filled x => Filled (Vz ++ x) | r => r end). now destruct (format host Vx Vy Vz other None r). }
    rewrite X, IH by assumption. reflexivity.
Qed.
End Format.

(** ** only known fields, without doubled braces *)
Lemma format_other host Vx Vy Vz o1 o2 s : (forall a b, s <> a ++ [obrace; obrace] ++ b) -> forall st prev,
  (prev = true -> forall r, s <> obrace :: r) ->
  (forall f, In f (find_fields prev st s) -> In f known_fields) ->
  format host Vx Vy Vz o1 st s = format host Vx Vy Vz o2 st s.
Proof.
  intros Hs. induction s as [s IH] using (well_founded_induction (Wf_nat.well_founded_ltof _ (@length ascii))). intros st prev Hp Hf.
  assert (Tail : forall c s1, s = c :: s1 -> forall a b, s1 <> a ++ [obrace; obrace] ++ b).
  { intros c s1 -> a b ->. now apply (Hs (c :: a) b). }
  destruct s as [|c s1]; [destruct st; reflexivity|]. specialize (Tail c s1 eq_refl).
  assert (Open : c = obrace -> forall r, s1 <> obrace :: r) by (intros -> r ->; now apply (Hs [] r)).
  cbn [find_fields] in Hf.
  destruct st as [f|]; cbn [format].
  - destruct (Ascii.eqb c cbrace) eqn:B.
    + apply Ascii.eqb_eq in B. subst c. change (Ascii.eqb cbrace obrace) with false in Hf. cbv iota in Hf.
      assert (K : In f known_fields) by (apply Hf; now left).
      assert (E : field host Vx Vy Vz o1 f = field host Vx Vy Vz o2 f) by (destruct K as [<-|[<-|[<-|[<-|[]]]]]; reflexivity).
      rewrite E. destruct (field host Vx Vy Vz o2 f); [|reflexivity].
      rewrite (IH s1) with (prev := false); [reflexivity|unfold Wf_nat.ltof; cbn; lia|assumption|discriminate|]. intros g Hg. apply Hf. now right.
    + destruct (Ascii.eqb c obrace) eqn:A; [reflexivity|]. apply IH with (prev := false); [unfold Wf_nat.ltof; cbn; lia|assumption|discriminate|assumption].
  - destruct (Ascii.eqb c obrace) eqn:A; cbn [orb].
    + apply Ascii.eqb_eq in A. subst c. destruct s1 as [|d s2]; [reflexivity|].
      destruct (Ascii.eqb obrace d) eqn:D; [apply Ascii.eqb_eq in D; subst d; now destruct (Open eq_refl s2)|].
      change (Ascii.eqb obrace cbrace) with false. cbv iota.
      destruct prev; [now destruct (Hp eq_refl (d :: s2))|].
      apply IH with (prev := true); [unfold Wf_nat.ltof; cbn; lia|assumption|intros _; now apply Open|assumption].
    + destruct (Ascii.eqb c cbrace) eqn:B.
      * destruct s1 as [|d s2]; [reflexivity|]. destruct (Ascii.eqb c d) eqn:D; [|reflexivity].
        apply Ascii.eqb_eq in D, B. subst d c. cbn [app] in Hf. cbn [find_fields] in Hf. change (Ascii.eqb cbrace obrace) with false in Hf. change (Ascii.eqb cbrace cbrace) with true in Hf. cbn [app] in Hf.
        rewrite (IH s2) with (prev := false); [reflexivity|unfold Wf_nat.ltof; cbn; lia| |discriminate|assumption].
        intros a b ->. now apply (Tail (cbrace :: a) b).
      * rewrite (IH s1) with (prev := false); [reflexivity|unfold Wf_nat.ltof; cbn; lia|assumption|discriminate|assumption].
Qed.

Lemma find_known_in s f : In f (find_known s) -> In f known_fields /\ exists a b, s = a ++ [obrace] ++ f ++ [cbrace] ++ b.
Proof.
  induction s as [|c s IH]; [intros []|]. cbn [find_known]. intros H. apply in_app_or in H as [H|H].
  - unfold field_here in H. apply filter_In in H as (K & H). split; [assumption|]. apply starts_with_spec in H as (t & ->).
    exists [], t. cbn [app]. now rewrite <- app_assoc.
  - apply IH in H as (K & a & b & ->). split; [assumption|]. now exists (c :: a), b.
Qed.

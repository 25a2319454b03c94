(** * C52: client and servers agree on an API version which all of them support *)
From Coq Require Import List ZArith Bool Lia.
From Verif Require Import Base M_Location.
Import List ListNotations.
Local Open Scope Z_scope.

(** what an installation offers *)
Definition api_ok (a : api) : Prop :=
  0 < v_min a /\ v_min a <= v_default a <= v_max a /\ (v_actual a = 0 \/ v_min a <= v_actual a <= v_max a).
Definition supports (a : api) (v : Z) : Prop := v_min a <= v <= v_max a.

(** An agreement gives both sides the same version, which both support, and which is the one asked for, if one was. *)
Theorem C52_agreed_version : forall (loc rem loc' rem' : api),
  api_ok loc -> api_ok rem -> agree loc rem = Some (loc', rem') ->
  get_api_version loc' = get_api_version rem'
  /\ supports loc (get_api_version loc') /\ supports rem (get_api_version loc')
  /\ (v_actual loc <> 0 -> get_api_version loc' = v_actual loc)
  /\ api_ok loc' /\ api_ok rem'.
Proof.
  intros [ld ll lu la] [rd rl ru ra] loc' rem' (L1 & L2 & L3) (R1 & R2 & R3). unfold agree, set_api_version, supports, api_ok, get_api_version in *. cbn in *.
  destruct (Z.min ru lu <? Z.max rl ll) eqn:E; [discriminate|]. apply Z.ltb_ge in E.
  destruct (la =? 0) eqn:A; cbn [negb].
  - destruct (((Z.max rl (Z.min ru ld) <? rl) || (ru <? Z.max rl (Z.min ru ld)))) eqn:B; [discriminate|]. intros [= <- <-]. cbn.
    apply Z.eqb_eq in A. apply orb_false_iff in B as (B1 & B2). apply Z.ltb_ge in B1, B2.
    destruct (Z.max rl (Z.min ru ld) =? 0) eqn:Z0; [apply Z.eqb_eq in Z0; lia|]. repeat split; try lia.
  - destruct ((rl <=? la) && (la <=? ru)) eqn:B; [|discriminate]. apply andb_true_iff in B as (B1 & B2). apply Z.leb_le in B1, B2.
    destruct ((la <? rl) || (ru <? la)) eqn:C; [discriminate|]. intros [= <- <-]. cbn. apply Z.eqb_neq in A.
    destruct (la =? 0) eqn:Z0; [apply Z.eqb_eq in Z0; lia|]. repeat split; try lia.
Qed.
Print Assumptions C52_agreed_version.

(** Without a version asked for, there's an agreement whenever there's a common version, and it's the one
    closest to the client's default. *)
Theorem C52_agreement_whenever_possible : forall (loc rem : api),
  api_ok loc -> api_ok rem -> v_actual loc = 0 ->
  ((exists loc' rem', agree loc rem = Some (loc', rem')) <-> (exists v, supports loc v /\ supports rem v))
  /\ forall loc' rem' v, agree loc rem = Some (loc', rem') -> supports loc v -> supports rem v ->
       Z.abs (get_api_version loc' - v_default loc) <= Z.abs (v - v_default loc).
Proof.
  intros [ld ll lu la] [rd rl ru ra] (L1 & L2 & L3) (R1 & R2 & R3) A. unfold agree, set_api_version, supports, get_api_version in *. cbn in *. subst la.
  change (negb (0 =? 0)) with false. cbv iota. split.
  - split.
    + intros (l & r & H). destruct (Z.min ru lu <? Z.max rl ll) eqn:E; [discriminate|]. apply Z.ltb_ge in E. exists (Z.max rl ll). lia.
    + intros (v & V1 & V2). destruct (Z.min ru lu <? Z.max rl ll) eqn:E; [apply Z.ltb_lt in E; lia|].
      destruct ((Z.max rl (Z.min ru ld) <? rl) || (ru <? Z.max rl (Z.min ru ld))) eqn:B; [|eauto].
      apply orb_true_iff in B as [B|B]; apply Z.ltb_lt in B; lia.
  - intros l r v H V1 V2. destruct (Z.min ru lu <? Z.max rl ll) eqn:E; [discriminate|].
    destruct ((Z.max rl (Z.min ru ld) <? rl) || (ru <? Z.max rl (Z.min ru ld))) eqn:B; [discriminate|]. injection H as <- <-. cbn.
    destruct (Z.max rl (Z.min ru ld) =? 0) eqn:Z0; lia.
Qed.
Print Assumptions C52_agreement_whenever_possible.

(** With a version asked for, exactly if the other side supports it. *)
Theorem C52_asked_for : forall (loc rem : api),
  api_ok loc -> api_ok rem -> v_actual loc <> 0 ->
  ((exists loc' rem', agree loc rem = Some (loc', rem')) <-> supports rem (v_actual loc)).
Proof.
  intros [ld ll lu la] [rd rl ru ra] (L1 & L2 & L3) (R1 & R2 & R3) A. unfold agree, set_api_version, supports in *. cbn in *.
  apply Z.eqb_neq in A as A'. rewrite A'. cbn [negb]. split.
  - intros (l & r & H). destruct (Z.min ru lu <? Z.max rl ll); [discriminate|]. destruct ((rl <=? la) && (la <=? ru)) eqn:B; [|discriminate].
    apply andb_true_iff in B as (B1 & B2). apply Z.leb_le in B1, B2. lia.
  - intros (V1 & V2). destruct (Z.min ru lu <? Z.max rl ll) eqn:E; [apply Z.ltb_lt in E; lia|].
    destruct ((rl <=? la) && (la <=? ru)) eqn:B; [|apply andb_false_iff in B as [B|B]; apply Z.leb_gt in B; lia].
    destruct ((la <? rl) || (ru <? la)) eqn:C; [|eauto]. apply orb_true_iff in C as [C|C]; apply Z.ltb_lt in C; lia.
Qed.
Print Assumptions C52_asked_for.

(** Any number of remote sides, one after the other: all end with the same version, which all support. *)
Theorem C52_all_the_same : forall (rems : list api) (loc loc' : api) (rems' : list api),
  api_ok loc -> Forall api_ok rems -> agree_all loc rems = Some (loc', rems') ->
  rems <> [] ->
  supports loc (get_api_version loc') /\ Forall (fun r => supports r (get_api_version loc')) rems
  /\ Forall (fun r => get_api_version r = get_api_version loc') rems'.
Proof.
  assert (Keep : forall rems loc loc' rems', api_ok loc -> Forall api_ok rems -> v_actual loc <> 0 -> agree_all loc rems = Some (loc', rems') ->
    loc' = loc /\ Forall (fun r => supports r (get_api_version loc)) rems /\ Forall (fun r => get_api_version r = get_api_version loc) rems').
  { induction rems as [|r rems IH]; intros loc loc' rems' L R A H; cbn [agree_all] in H; [injection H as <- <-; now repeat split|].
    inversion R as [|? ? Rr Rs]; subst. destruct (agree loc r) as [[l1 r1]|] eqn:E; [|discriminate].
    assert (l1 = loc).
    { unfold agree in E. apply Z.eqb_neq in A. rewrite A in E. cbn [negb] in E. destruct (Z.min _ _ <? _); [discriminate|].
      destruct (_ && _); [|discriminate]. destruct (set_api_version _ _); [|discriminate]. now injection E as <- <-. }
    subst l1. destruct (C52_agreed_version loc r loc r1 L Rr E) as (X1 & X2 & X3 & X4 & X5 & X6).
    destruct (agree_all loc rems) as [[l2 rs]|] eqn:E2; [|discriminate]. injection H as <- <-.
    destruct (IH loc l2 rs L Rs A E2) as (-> & F1 & F2). split; [reflexivity|]. split; constructor; auto. }
  intros rems loc loc' rems' L R H N. destruct rems as [|r rems]; [contradiction|]. cbn [agree_all] in H. inversion R as [|? ? Rr Rs]; subst.
  destruct (agree loc r) as [[l1 r1]|] eqn:E; [|discriminate]. destruct (C52_agreed_version loc r l1 r1 L Rr E) as (X1 & X2 & X3 & X4 & X5 & X6).
  assert (A1 : v_actual l1 <> 0).
  { assert (G : 0 < get_api_version l1) by (destruct X2 as (X2 & _); destruct L as (L & _); lia).
    unfold agree in E. destruct (Z.min _ _ <? _); [discriminate|]. destruct (v_actual loc =? 0) eqn:A; cbn [negb] in E.
    - destruct (set_api_version _ _); [|discriminate]. injection E as <- <-. cbn. destruct Rr as (Rr & _). lia.
    - destruct (_ && _); [|discriminate]. destruct (set_api_version _ _); [|discriminate]. injection E as <- <-. now apply Z.eqb_neq. }
  destruct (agree_all l1 rems) as [[l2 rs]|] eqn:E2; [|discriminate]. injection H as <- <-.
  destruct (Keep rems l1 l2 rs X5 Rs A1 E2) as (-> & F1 & F2). split; [assumption|]. split; constructor; auto.
Qed.
Print Assumptions C52_all_the_same.

(** ** Exception: the first remote side decides; a version common to all three isn't looked for. *)
Theorem C52_common_version_not_found_refuted :
  exists loc r1 r2 v, api_ok loc /\ api_ok r1 /\ api_ok r2 /\ v_actual loc = 0
    /\ supports loc v /\ supports r1 v /\ supports r2 v /\ agree_all loc [r1; r2] = None.
Proof.
  exists (mk_api 219 219 299 0), (mk_api 200 200 230 0), (mk_api 225 225 299 0), 225.
  unfold api_ok, supports. cbn. repeat split; try lia; auto.
Qed.
Print Assumptions C52_common_version_not_found_refuted.

(** ** Example *)
Example ex_agree : agree_all (mk_api 219 219 299 0) [mk_api 201 200 299 0; mk_api 300 210 399 0]
  = Some (mk_api 219 219 299 219, [mk_api 201 200 299 219; mk_api 300 210 399 219]).
Proof. reflexivity. Qed.

(** * C82: plug-ins. *)
From Coq Require Import List Bool Ascii Arith Lia.
From Verif Require Import Base M_Plugins.
Import List ListNotations.

Lemma beq_bytes_true a b : beq_bytes a b = true <-> a = b.
Proof. unfold beq_bytes. destruct (list_eq_dec _ a b) as [->|N]; split; congruence. Qed.

Definition keys {A} (d : list (bytes * A)) := map fst d.
Lemma dset_keys {A} k (v : A) d : forall x, In x (keys (dset k v d)) <-> x = k \/ In x (keys d).
Proof.
  unfold keys. induction d as [|[k' v'] d IH]; intros x; cbn [dset].
  - cbn. intuition.
  - destruct (beq_bytes k' k) eqn:B; cbn [map fst In].
    + apply beq_bytes_true in B. subst. intuition.
    + rewrite IH. intuition.
Qed.
Lemma dset_nodup {A} k (v : A) d : NoDup (keys d) -> NoDup (keys (dset k v d)).
Proof.
  unfold keys. induction d as [|[k' v'] d IH]; intros N; cbn [dset map fst].
  - repeat constructor. easy.
  - inversion N as [|? ? N1 N2]; subst. destruct (beq_bytes k' k) eqn:B; cbn [map fst].
    + apply beq_bytes_true in B. subst. now constructor.
    + constructor; [|now apply IH]. intros I. apply (dset_keys k v d k') in I as [->|I]; [|contradiction].
      rewrite (proj2 (beq_bytes_true k k) eq_refl) in B. discriminate.
Qed.
Lemma dset_in {A} k (v : A) d e : NoDup (keys d) -> (In e (dset k v d) <-> e = (k, v) \/ (In e d /\ fst e <> k)).
Proof.
  unfold keys. induction d as [|[k' v'] d IH]; intros N; cbn [dset map fst] in *.
  - cbn. intuition.
  - inversion N as [|? ? N1 N2]; subst. specialize (IH N2). destruct (beq_bytes k' k) eqn:B; cbn [In].
    + apply beq_bytes_true in B. subst. split.
      * intros [<-|I]; [now left|]. right. split; [now right|]. intros E. apply N1. rewrite <- E. now apply in_map.
      * intros [->|[[<-|I] NE]]; [now left|now destruct NE|now right].
    + rewrite IH. assert (NK : k' <> k) by (intros ->; rewrite (proj2 (beq_bytes_true k k) eq_refl) in B; discriminate).
      split.
      * intros [<-|[->|[I NE]]]; [right; split; [now left|exact NK]|now left|right; split; [now right|exact NE]].
      * intros [->|[[<-|I] NE]]; [right; now left|now left|right; right; now split].
Qed.

(** the last of the values for a key *)
Definition last_of {A} (k : bytes) (v : A) (l : list (bytes * A)) : Prop :=
  exists a b, l = a ++ (k, v) :: b /\ ~ In k (keys b).
Lemma update_spec {A} (e : list (bytes * A)) : forall d, NoDup (keys d) -> NoDup (keys (update d e)) /\
  forall k v, In (k, v) (update d e) <-> last_of k v e \/ (In (k, v) d /\ ~ In k (keys e)).
Proof.
  unfold update. induction e as [|[k0 v0] e IH]; intros d N; cbn [fold_left fst snd].
  - split; [exact N|]. intros k v. split; [right; split; [assumption|easy]|].
    intros [(a & b & E & _)|[I _]]; [now destruct a|exact I].
  - destruct (IH (dset k0 v0 d) (dset_nodup k0 v0 d N)) as [N2 S]. split; [exact N2|]. intros k v.
    rewrite S, (dset_in k0 v0 d (k, v) N). cbn [fst]. unfold last_of, keys. cbn [map fst In].
    split.
    + intros [(a & b & -> & NB)|[[E|[I NK]] NI]].
      * left. exists ((k0, v0) :: a), b. now split.
      * injection E as -> ->. left. exists [], e. now split.
      * right. split; [exact I|]. intros [Q|Q]; [now apply NK|now apply NI].
    + intros [(a & b & E & NB)|[I NI]].
      * destruct a as [|x a]; cbn [app] in E.
        -- injection E as -> -> ->. right. split; [now left|exact NB].
        -- injection E as _ ->. left. exists a, b. now split.
      * right. split; [right; split; [exact I|]|]; intros Q; apply NI; [left; congruence|now right].
Qed.
Lemma last_of_in {A} k (v : A) l : last_of k v l -> In (k, v) l.
Proof. intros (a & b & -> & _). apply in_or_app. right. now left. Qed.
Lemma nodup_last {A} k (v : A) l : NoDup (keys l) -> In (k, v) l -> last_of k v l.
Proof.
  intros N I. apply in_split in I as (a & b & ->). exists a, b. split; [reflexivity|].
  unfold keys in *. rewrite map_app in N. apply NoDup_remove_2 in N. intros I. apply N. apply in_or_app. now right.
Qed.
Lemma last_exists {A} (k : bytes) (l : list (bytes * A)) : In k (keys l) -> exists v, last_of k v l.
Proof.
  unfold keys. induction l as [|[k0 v0] l IH]; [easy|]. cbn [map fst In]. intros I.
  destruct (in_dec (list_eq_dec ascii_dec) k (map fst l)) as [J|J].
  - destruct (IH J) as (v & a & b & -> & NB). exists v, ((k0, v0) :: a), b. now split.
  - destruct I as [->|I]; [|contradiction]. exists v0, [], l. now split.
Qed.
Lemma nodup_key {A} k (v w : A) l : NoDup (keys l) -> In (k, v) l -> In (k, w) l -> v = w.
Proof.
  unfold keys. induction l as [|[k0 v0] l IH]; [easy|]. cbn [map fst In]. intros N. inversion N as [|? ? N1 N2]; subst.
  intros [E|I] [F|J].
  - congruence.
  - injection E as -> ->. destruct N1. change k with (fst (k, w)). now apply in_map.
  - injection F as -> ->. destruct N1. change k with (fst (k, v)). now apply in_map.
  - now apply IH.
Qed.

Definition names (l : list module) : list bytes := map (fun m => c_name (snd m)) l.

(** the modules found: the delivered ones, and those at the top level with the prefix *)
Lemma modules_in prefix top delivered m : In m (discovered_modules prefix top delivered) ->
  In m delivered \/ (In m top /\ starts_with prefix (fst m) = true).
Proof.
  unfold discovered_modules. destruct m as [k c]. intros I.
  destruct (update_spec (filter (fun m => starts_with prefix (fst m)) top) [] (NoDup_nil _)) as [N1 S1].
  destruct (update_spec delivered _ N1) as [N2 S2]. apply S2 in I as [L|[I _]]; [left; now apply last_of_in|].
  apply S1 in I as [L|[[] _]]. apply last_of_in, filter_In in L. now right.
Qed.

Lemma update_order {A} (e : list (bytes * A)) : forall d, NoDup (keys e) -> (forall k, In k (keys e) -> ~ In k (keys d)) ->
  update d e = d ++ e.
Proof.
  unfold update. induction e as [|[k v] e IH]; intros d N D; [now rewrite app_nil_r|]. cbn [fold_left fst snd].
  inversion N as [|? ? N1 N2]; subst.
  assert (E : dset k v d = d ++ [(k, v)]).
  { assert (NK : ~ In k (keys d)) by (apply D; now left). clear - NK. induction d as [|[k' v'] d IH]; [reflexivity|].
    cbn [dset app]. destruct (beq_bytes k' k) eqn:B.
    - apply beq_bytes_true in B. subst. destruct NK. now left.
    - rewrite IH; [reflexivity|]. intros I. apply NK. now right. }
  rewrite E, IH.
  - now rewrite <- app_assoc.
  - exact N2.
  - intros x I J. unfold keys in *. rewrite map_app in J. apply in_app_or in J as [J|[<-|[]]].
    + apply (D x); [now right|exact J].
    + now apply N1.
Qed.

(** C82: an added plug-in never takes the place of a delivered one, whatever its name. *)
Theorem C82_delivered_first : forall prefix top delivered m c,
  NoDup (map fst delivered) -> NoDup (names delivered) ->
  (forall x, In x delivered -> starts_with prefix (fst x) = false) ->
  In (m, c) delivered -> In (c_name c, c) (discover prefix top delivered) /\
  forall c', In (c_name c, c') (discover prefix top delivered) -> c' = c.
Proof.
  intros prefix top delivered m c N1 N2 NP I.
  unfold discover, discovered_modules.
  set (T := filter (fun m => starts_with prefix (fst m)) top).
  destruct (update_spec T [] (NoDup_nil _)) as [NT ST].
  rewrite (update_order delivered (update [] T)).
  2: exact N1.
  2:{ intros k J K. unfold keys in *. apply in_map_iff in J as (x & <- & J). apply in_map_iff in K as ([k' c'] & E & K).
      apply ST in K as [K|[[] _]]. apply last_of_in in K. unfold T in K. apply filter_In in K as [_ K].
      cbn [fst] in E, K. subst k'. rewrite (NP x J) in K. discriminate. }
  rewrite map_app.
  match goal with |- context [update [] ?l] => destruct (update_spec l [] (NoDup_nil _)) as [NS S] end.
  assert (L : In (c_name c, c) (update [] (map (fun m => (c_name (snd m), snd m)) (update [] T) ++
                                 map (fun m => (c_name (snd m), snd m)) delivered))).
  { apply S. left.
    assert (J : In (c_name c, c) (map (fun m => (c_name (snd m), snd m)) delivered)) by (apply in_map_iff; now exists (m, c)).
    apply nodup_last in J.
    - destruct J as (a & b & -> & NB). rewrite app_assoc. eexists _, b. split; [reflexivity|exact NB].
    - unfold keys. rewrite map_map. exact N2. }
  split; [exact L|]. intros c' L'. exact (nodup_key _ _ _ _ NS L' L).
Qed.
Print Assumptions C82_delivered_first.

(** C82: nothing else is taken for a plug-in, each goes by the name it gives itself, once,
    and none is lost but to one of the same name. *)
Theorem C82_only_plugins : forall prefix top delivered,
  NoDup (map fst (discover prefix top delivered)) /\
  (forall n c, In (n, c) (discover prefix top delivered) -> n = c_name c /\
     exists m, In (m, c) delivered \/ (In (m, c) top /\ starts_with prefix m = true)) /\
  (forall m c, (In (m, c) delivered \/ (In (m, c) top /\ starts_with prefix m = true)) ->
     NoDup (map fst top) -> NoDup (map fst delivered) -> (forall n, In n (map fst top) -> ~ In n (map fst delivered)) ->
     exists c', In (c_name c, c') (discover prefix top delivered)).
Proof.
  intros prefix top delivered. unfold discover.
  destruct (update_spec (map (fun m => (c_name (snd m), snd m)) (discovered_modules prefix top delivered)) [] (NoDup_nil _)) as [N S].
  split; [exact N|]. split.
  - intros n c I. apply S in I as [L|[[] _]]. apply last_of_in, in_map_iff in L as ([m c'] & E & L).
    cbn [snd] in E. injection E as <- <-. split; [reflexivity|]. exists m. apply modules_in in L. exact L.
  - intros m c I NT ND2 DJ.
    assert (J : In (m, c) (discovered_modules prefix top delivered)).
    { unfold discovered_modules. destruct (update_spec (filter (fun m => starts_with prefix (fst m)) top) [] (NoDup_nil _)) as [N1 S1].
      destruct (update_spec delivered _ N1) as [N2 S2]. apply S2.
      destruct I as [I|[I P]]; [left; now apply nodup_last|right].
      split.
      - apply S1. left. apply nodup_last; [|now apply filter_In].
        clear - NT. unfold keys. induction top as [|x top IH]; [constructor|]. cbn [filter map] in *. inversion NT as [|? ? A B]; subst.
        destruct (starts_with prefix (fst x)); [|now apply IH]. cbn [map]. constructor; [|now apply IH].
        intros J. apply A. apply in_map_iff in J as (y & E & J). apply filter_In in J as [J _]. rewrite <- E. now apply in_map.
      - apply in_map with (f := fst) in I. now apply DJ. }
    destruct (last_exists (c_name c) (map (fun m => (c_name (snd m), snd m)) (discovered_modules prefix top delivered))) as [c' L].
    + unfold keys. rewrite map_map. cbn [fst]. apply in_map_iff. now exists (m, c).
    + exists c'. apply S. now left.
Qed.
Print Assumptions C82_only_plugins.

(** ** the kinds of metadata *)
Lemma split_some l : forall m o, split_main (Some m) o l =
  if existsb c_main l then None else Some (m :: o ++ l).
Proof.
  induction l as [|c l IH]; intros m o; cbn [split_main existsb]; [now rewrite app_nil_r|].
  destruct (c_main c); [reflexivity|]. rewrite IH. cbn [orb]. now rewrite <- app_assoc.
Qed.
Lemma split_none l : forall o r, split_main None o l = Some r <->
  exists a m b, l = a ++ m :: b /\ c_main m = true /\ existsb c_main a = false /\ existsb c_main b = false /\ r = m :: o ++ a ++ b.
Proof.
  induction l as [|c l IH]; intros o r; cbn [split_main].
  - split; [discriminate|]. intros ([|x a] & m & b & E & _); discriminate.
  - destruct (c_main c) eqn:C.
    + rewrite split_some. split.
      * destruct (existsb c_main l) eqn:X; [discriminate|]. intros E. injection E as <-. exists [], c, l. auto.
      * intros (a & m & b & E & M & A & B & ->). destruct a as [|x a]; cbn [app] in E; injection E as -> ->.
        -- rewrite B. reflexivity.
        -- cbn [existsb] in A. rewrite C in A. discriminate.
    + rewrite IH. split.
      * intros (a & m & b & -> & M & A & B & ->). exists (c :: a), m, b. cbn [existsb app]. rewrite C, A. repeat split; auto.
        now rewrite <- app_assoc.
      * intros (a & m & b & E & M & A & B & ->). destruct a as [|x a]; cbn [app] in E; injection E as -> ->; [congruence|].
        cbn [existsb] in A. rewrite C in A. exists a, m, b. repeat split; auto. cbn [app]. now rewrite <- app_assoc.
Qed.

(** C82: the kinds of metadata are used with the main one first, the others in the order
    found, each once; the program stops unless exactly one claims to be the main one. *)
Theorem C82_main_first : forall d l, meta_list d = Some l <->
  exists a m b, map snd d = a ++ m :: b /\ c_main m = true /\ (forall c, In c (a ++ b) -> c_main c = false) /\ l = m :: a ++ b.
Proof.
  intros d l. unfold meta_list. rewrite split_none.
  assert (X : forall a b : list class, (existsb c_main a = false /\ existsb c_main b = false) <-> forall c, In c (a ++ b) -> c_main c = false).
  { intros a b. split.
    - intros [A B] c I. apply in_app_or in I. destruct (c_main c) eqn:C; [|reflexivity]. exfalso.
      destruct I as [I|I]; [assert (K : existsb c_main a = true)|assert (K : existsb c_main b = true)];
        try (apply existsb_exists; now exists c); congruence.
    - intros H. split; [destruct (existsb c_main a) eqn:E|destruct (existsb c_main b) eqn:E]; try reflexivity;
        apply existsb_exists in E as (c & I & C); rewrite H in C by (apply in_or_app; auto); discriminate. }
  split.
  - intros (a & m & b & E & M & A & B & ->). exists a, m, b. repeat split; auto. now apply X.
  - intros (a & m & b & E & M & H & ->). apply X in H as [A B]. exists a, m, b. auto.
Qed.
Print Assumptions C82_main_first.

(** C82: the main kind of metadata is the delivered one, whatever is added, or the program
    stops: it stops exactly if another one claims to be it. *)
Theorem C82_main_delivered : forall prefix top delivered m c,
  NoDup (map fst delivered) -> NoDup (names delivered) ->
  (forall x, In x delivered -> starts_with prefix (fst x) = false) ->
  In (m, c) delivered -> c_main c = true ->
  match meta_list (discover prefix top delivered) with
  | Some l => hd_error l = Some c
  | None => exists n c', In (n, c') (discover prefix top delivered) /\ c_main c' = true /\ n <> c_name c
  end.
Proof.
  intros prefix top delivered m c N1 N2 NP I M.
  destruct (C82_delivered_first prefix top delivered m c N1 N2 NP I) as [J U].
  destruct (C82_only_plugins prefix top delivered) as [ND _].
  destruct (meta_list _) as [l|] eqn:E.
  - apply C82_main_first in E as (a & m' & b & E & M' & H & ->). cbn [hd_error]. f_equal.
    assert (K : In c (map snd (discover prefix top delivered))) by (apply in_map_iff; now exists (c_name c, c)).
    rewrite E in K. apply in_app_or in K as [K|[K|K]]; [| exact K |];
      rewrite (H c) in M by (apply in_or_app; auto); discriminate.
  - set (d := discover prefix top delivered) in *. clearbody d.
    apply in_split in J as (a & b & ->).
    destruct (existsb (fun x => c_main (snd x)) (a ++ b)) eqn:X.
    + apply existsb_exists in X as ([n c'] & K & C). exists n, c'. split; [|split; [exact C|]].
      * apply in_app_or in K. apply in_or_app. cbn [In]. tauto.
      * intros ->. rewrite map_app in ND. cbn [map fst] in ND. apply NoDup_remove_2 in ND. rewrite <- map_app in ND.
        apply ND. change (c_name c) with (fst (c_name c, c')). now apply in_map.
    + exfalso. assert (Q : meta_list (a ++ (c_name c, c) :: b) = Some (c :: map snd a ++ map snd b)).
      { apply C82_main_first. exists (map snd a), c, (map snd b). rewrite map_app. repeat split; auto.
        intros x K. rewrite <- map_app in K. apply in_map_iff in K as (y & <- & K). destruct (c_main (snd y)) eqn:C; [|reflexivity].
        assert (Z : existsb (fun x => c_main (snd x)) (a ++ b) = true) by (apply existsb_exists; now exists y). congruence. }
      congruence.
Qed.
Print Assumptions C82_main_delivered.

(** Exceptions. *)
(** Of two added plug-ins of the same name one is lost without a word, which one
    depends on the order in which the modules are found. *)
Theorem C82_added_lost_refuted : forall prefix m1 m2 c1 c2,
  c_name c1 = c_name c2 -> m1 <> m2 -> starts_with prefix m1 = true -> starts_with prefix m2 = true ->
  discover prefix [(m1, c1); (m2, c2)] [] = [(c_name c2, c2)] /\
  discover prefix [(m2, c2); (m1, c1)] [] = [(c_name c1, c1)].
Proof.
  intros prefix m1 m2 c1 c2 E N P1 P2.
  assert (B : forall a b, a <> b -> beq_bytes a b = false).
  { intros a b D. destruct (beq_bytes a b) eqn:Q; [|reflexivity]. apply beq_bytes_true in Q. contradiction. }
  assert (R : forall a, beq_bytes a a = true) by (intros a; now apply beq_bytes_true).
  unfold discover, discovered_modules, update. cbn [filter fst]. rewrite P1, P2. cbn [fold_left dset fst snd].
  rewrite (B m1 m2 N), (B m2 m1 (not_eq_sym N)). cbn [map snd fold_left dset fst]. rewrite E, R. now split.
Qed.
Print Assumptions C82_added_lost_refuted.

Definition std : module := (bs "rdiffbackup.meta.stdattr", mk_class 0 (bs "stdattr") true).
Definition ea : module := (bs "rdiffbackup.meta.ea", mk_class 1 (bs "ea") false).
Definition extra : module := (bs "rdb_meta_x", mk_class 2 (bs "x") false).
Definition usurper : module := (bs "rdb_meta_std", mk_class 3 (bs "stdattr") true).
Definition second : module := (bs "rdb_meta_main", mk_class 4 (bs "other") true).
Definition unrelated : module := (bs "rdb_action_y", mk_class 5 (bs "y") false).
Example C82_example :
  option_map (map c_id) (meta_list (discover (bs "rdb_meta_") [extra; unrelated] [ea; std])) = Some [0; 2; 1]%nat /\
  option_map (map c_id) (meta_list (discover (bs "rdb_meta_") [usurper] [ea; std])) = Some [0; 1]%nat /\
  meta_list (discover (bs "rdb_meta_") [second] [ea; std]) = None /\
  NoDup (map fst [ea; std]) /\ NoDup (names [ea; std]) /\
  map (fun x => starts_with (bs "rdb_meta_") (fst x)) [ea; std] = [false; false].
Proof. repeat split; try (vm_compute; reflexivity); repeat constructor; cbn; intuition discriminate. Qed.

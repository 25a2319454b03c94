(** * C16, continued: all globbing patterns *)
From Coq Require Import List ZArith Bool Ascii Lia.
From Verif Require Import Base L_Base M_Iter L_Iter M_Select S_Select S_Glob L_Select L_Glob.
Import List ListNotations.
Local Open Scope Z_scope.

(** ** reading *)
Definition tok (p : piece) : option gtok :=
  match p with
  | PChar c => Some (GLit c)
  | POne => Some GQuest
  | PMany => Some GStar
  | PAny => Some GDstar
  | PSet neg body => option_map (GClass neg) (class_items body)
  end.
Lemma break_on_inv sep s a b : break_on sep s = (a, Some b) -> s = a ++ sep :: b /\ ~ In sep a.
Proof.
  revert a b; induction s as [|c s IH]; intros a b; cbn [break_on]; [discriminate|].
  destruct (Ascii.eqb_spec c sep) as [->|N]; [intros [= <- <-]; split; [reflexivity|intros []]|].
  destruct (break_on sep s) as [a' [b'|]] eqn:E; intros [= <- <-]. destruct (IH _ _ eq_refl) as [-> H].
  split; [reflexivity|]. intros [->|K]; [now apply N|now apply H].
Qed.
Lemma class_split_set r neg body g : set_at r neg body g ->
  exists stuff, class_split r = Some (stuff, g) /\ class_tok stuff = tok (PSet neg body).
Proof.
  intros (HB & HC & H).
  assert (K : forall h s1, s1 = body ++ c_close :: g ->
    (let '(h', s') := (match s1 with c :: r0 => if Ascii.eqb c c_close then (h ++ [c], r0) else (h, s1) | [] => (h, []) end) in
    let '(a, b) := break_on c_close s' in match b with Some r0 => Some (h' ++ a, r0) | None => None end) = Some (h ++ body, g)).
  { intros h s1 ->. destruct body as [|c body]; [congruence|]. cbn [app tl] in *. destruct (Ascii.eqb c c_close) eqn:E.
    - rewrite (break_on_app c_close body g HC). now rewrite <- app_assoc.
    - change (c :: body ++ c_close :: g) with ((c :: body) ++ c_close :: g). rewrite break_on_app; [reflexivity|].
      intros [->|I]; [now rewrite Ascii.eqb_refl in E|contradiction]. }
  destruct H as [(-> & m & Hm & ->)|(-> & Hm & ->)].
  - exists (m :: body). split; [|cbn [class_tok tok]; now rewrite Hm].
    unfold class_split, class_head. rewrite Hm. exact (K [m] (body ++ c_close :: g) eq_refl).
  - exists body. split; [|destruct body as [|c body]; [congruence|]; cbn [class_tok tok hd] in *; now rewrite Hm].
    unfold class_split, class_head. destruct body as [|c body]; [congruence|]. cbn [app hd] in *. rewrite Hm.
    exact (K [] (c :: body ++ c_close :: g) eq_refl).
Qed.
Lemma class_split_inv r stuff g : class_split r = Some (stuff, g) -> exists neg body, set_at r neg body g.
Proof.
  unfold class_split, class_head.
  assert (K : forall h s1, (let '(h', s') := (match s1 with c :: r0 => if Ascii.eqb c c_close then (h ++ [c], r0) else (h, s1) | [] => (h, []) end) in
     let '(a, b) := break_on c_close s' in match b with Some r0 => Some (h' ++ a, r0) | None => None end) = Some (stuff, g) ->
     exists body, body <> [] /\ ~ In c_close (tl body) /\ s1 = body ++ c_close :: g).
  { intros h s1. destruct s1 as [|c r0]; [discriminate|]. destruct (Ascii.eqb c c_close) eqn:E.
    - destruct (break_on c_close r0) as [a [b|]] eqn:B; [|discriminate]. intros [= _ <-]. apply break_on_inv in B as [-> B].
      exists (c :: a). split; [discriminate|]. split; [exact B|reflexivity].
    - destruct (break_on c_close (c :: r0)) as [a [b|]] eqn:B; [|discriminate]. intros [= _ <-]. apply break_on_inv in B as [B1 B2].
      exists a. destruct a as [|c' a]; [injection B1 as -> _; now rewrite Ascii.eqb_refl in E|].
      split; [discriminate|]. split; [intros I; apply B2; now right|exact B1]. }
  intros H. destruct r as [|c r]; [discriminate|]. destruct (is_neg c) eqn:N.
  - destruct (K [c] r H) as (body & B1 & B2 & ->). exists true, body. split; [exact B1|]. split; [exact B2|]. left. split; [reflexivity|]. now exists c.
  - destruct (K [] (c :: r) H) as (body & B1 & B2 & B3). exists false, body. split; [exact B1|]. split; [exact B2|]. right. split; [reflexivity|].
    split; [|exact B3]. destruct body as [|c' body]; [congruence|]. injection B3 as <- _. exact N.
Qed.
Lemma no_special c : is_special c = false -> Ascii.eqb c c_bs = false /\ Ascii.eqb c c_star = false /\ Ascii.eqb c c_quest = false /\ Ascii.eqb c c_open = false.
Proof. unfold is_special. intros H. apply orb_false_iff in H as [H H4]. apply orb_false_iff in H as [H H3]. apply orb_false_iff in H as [H1 H2]. auto. Qed.
Lemma set_at_length r neg body g : set_at r neg body g -> (length g < length r)%nat.
Proof. intros (_ & _ & [(_ & m & _ & ->)|(_ & _ & ->)]); cbn [length]; rewrite app_length; cbn [length]; lia. Qed.
Lemma reads_toks g ps : reads g ps -> forall f, (length g <= f)%nat -> glob_toks_fuel f g = all_some (map tok ps).
Proof.
  induction 1 as [|c g ps S R IH|d g ps R IH| |g ps R IH|g ps N R IH|g ps R IH|r neg body g ps S R IH|r ps S R IH]; intros f Hf;
    (destruct f as [|f]; [try (cbn in Hf; lia)|]); cbn [length] in Hf; cbn [glob_toks_fuel map tok all_some]; try reflexivity.
  - destruct (no_special c S) as (-> & -> & -> & ->). now rewrite IH by lia.
  - rewrite Ascii.eqb_refl. now rewrite IH by lia.
  - change (Ascii.eqb c_quest c_bs) with false. change (Ascii.eqb c_quest c_star) with false. change (Ascii.eqb c_quest c_quest) with true. cbv iota. now rewrite IH by lia.
  - change (Ascii.eqb c_star c_bs) with false. change (Ascii.eqb c_star c_star) with true. cbv iota.
    destruct g as [|d g]; [inversion R; subst; reflexivity|]. destruct (Ascii.eqb d c_star) eqn:E; [apply eqb_true in E; subst; now destruct (N g)|].
    rewrite IH by (cbn [length] in *; lia). reflexivity.
  - change (Ascii.eqb c_star c_bs) with false. change (Ascii.eqb c_star c_star) with true. cbv iota. rewrite IH by lia. reflexivity.
  - change (Ascii.eqb c_open c_bs) with false. change (Ascii.eqb c_open c_star) with false. change (Ascii.eqb c_open c_quest) with false. change (Ascii.eqb c_open c_open) with true. cbv iota.
    pose proof (set_at_length _ _ _ _ S). destruct (class_split_set _ _ _ _ S) as (stuff & -> & ->). cbn [tok]. rewrite IH by lia.
    destruct (class_items body); cbn [option_map]; [|reflexivity]. destruct (all_some (map tok ps)); reflexivity.
  - change (Ascii.eqb c_open c_bs) with false. change (Ascii.eqb c_open c_star) with false. change (Ascii.eqb c_open c_quest) with false. change (Ascii.eqb c_open c_open) with true. cbv iota.
    destruct (class_split r) as [[stuff g]|] eqn:E; [apply class_split_inv in E as (neg & body & E); now apply S in E|].
    rewrite IH by lia. reflexivity.
Qed.
Lemma special_cases c : is_special c = true -> c = c_star \/ c = c_quest \/ c = c_open \/ c = c_bs.
Proof.
  unfold is_special. intros H. apply orb_true_iff in H as [H|H]; [|apply eqb_true in H; auto].
  apply orb_true_iff in H as [H|H]; [|apply eqb_true in H; auto]. apply orb_true_iff in H as [H|H]; apply eqb_true in H; auto.
Qed.
Lemma reads_total n : forall g, (length g <= n)%nat -> exists ps, reads g ps.
Proof.
  induction n as [|n IH]; intros g Hg; (destruct g as [|c g]; [exists []; constructor|]); cbn [length] in Hg; [lia|].
  destruct (is_special c) eqn:E.
  - destruct (special_cases c E) as [->|[->|[->| ->]]].
    + destruct g as [|d g]; [exists [PMany]; apply R_many; [discriminate|constructor]|].
      destruct (Ascii.eqb_spec d c_star) as [->|N].
      * destruct (IH g ltac:(cbn in Hg; lia)) as [ps R]. exists (PAny :: ps). now apply R_any.
      * destruct (IH (d :: g) ltac:(lia)) as [ps R]. exists (PMany :: ps). apply R_many; [intros g' [= K _]; contradiction|exact R].
    + destruct (IH g ltac:(lia)) as [ps R]. exists (POne :: ps). now apply R_one.
    + destruct (class_split g) as [[stuff g']|] eqn:E1.
      * apply class_split_inv in E1 as (neg & body & S). pose proof (set_at_length _ _ _ _ S).
        destruct (IH g' ltac:(lia)) as [ps R]. exists (PSet neg body :: ps). eapply R_set; eassumption.
      * destruct (IH g ltac:(lia)) as [ps R]. exists (PChar c_open :: ps). apply R_bracket; [|exact R].
        intros neg body g' S. destruct (class_split_set _ _ _ _ S) as (stuff & K & _). congruence.
    + destruct g as [|d g]; [exists [PChar c_bs]; apply R_escape_end|]. destruct (IH g ltac:(cbn in Hg; lia)) as [ps R]. exists (PChar d :: ps). now apply R_escape.
  - destruct (IH g ltac:(lia)) as [ps R]. exists (PChar c :: ps). now apply R_char.
Qed.

(** ** sets *)
Lemma class_items_ok body : (class_items body <> None <-> set_ok body) /\
  forall l, class_items body = Some l -> forall x, in_ranges l x = true <-> in_set body x.
Proof.
  remember (length body) as n eqn:En. assert (Hn : (length body <= n)%nat) by lia. clear En. revert body Hn.
  induction n as [|n IH]; intros body Hn; (destruct body as [|a r]; [split; [split; [constructor|discriminate]|intros l [= <-] x; split; [discriminate|inversion 1]]|]); cbn [length] in Hn; [lia|].
  assert (SG : (forall b r', r <> c_minus :: b :: r') -> class_items (a :: r) = option_map (cons (a, a)) (class_items r) ->
    (class_items (a :: r) <> None <-> set_ok (a :: r)) /\ forall l, class_items (a :: r) = Some l -> forall x, in_ranges l x = true <-> in_set (a :: r) x).
  { intros NR E. destruct (IH r ltac:(lia)) as [I1 I2]. rewrite E. split.
    - transitivity (class_items r <> None); [destruct (class_items r); cbn; split; congruence|]. rewrite I1. split; [now apply O_single|].
      inversion 1; subst; [exfalso; eapply NR; reflexivity|assumption].
    - intros l El x. destruct (class_items r) as [l'|] eqn:Er; [|discriminate]. injection El as <-. cbn [in_ranges existsb].
      fold (in_ranges l' x). rewrite orb_true_iff, (I2 l' eq_refl x), andb_true_iff, !N.leb_le. split.
      + intros [[H1 H2]|H]; [|now apply I_after]. assert (x = a) as ->; [|now apply I_single]. 
        assert (ord x = ord a) as K by lia. rewrite <- (ascii_N_embedding x), <- (ascii_N_embedding a). unfold ord in K. now rewrite K.
      + inversion 1; subst; try (exfalso; eapply NR; reflexivity); [left; lia|now right]. }
  destruct r as [|m [|b r']]; [apply SG; [discriminate|reflexivity]|apply SG; [intros; discriminate|reflexivity]|].
  destruct (Ascii.eqb_spec m c_minus) as [->|N].
  - destruct (IH r' ltac:(cbn [length] in Hn; lia)) as [I1 I2]. cbn [class_items]. change (Ascii.eqb c_minus c_minus) with true. cbv iota.
    destruct (N.leb_spec (ord a) (ord b)) as [L|L].
    + split.
      * transitivity (class_items r' <> None); [destruct (class_items r'); cbn; split; congruence|]. rewrite I1. split; [now apply O_range|].
        inversion 1 as [|? ? ? ? ? E|? ? NR ? E]; subst; [assumption|exfalso; eapply NR; reflexivity].
      * intros l El x. destruct (class_items r') as [l'|] eqn:Er; [|discriminate]. injection El as <-. cbn [in_ranges existsb].
        fold (in_ranges l' x). rewrite orb_true_iff, (I2 l' eq_refl x), andb_true_iff, !N.leb_le. split.
        -- intros [[H1 H2]|H]; [now apply I_range|now apply I_after_range].
        -- inversion 1 as [? ? ? ? H1 H2 E|? ? ? ? H1 E|? ? NR E|? ? ? NR H1 E]; subst; [left; lia|now right| |]; exfalso; eapply NR; reflexivity.
    + split; [|discriminate]. split; [congruence|]. intros H. exfalso. inversion H as [|? ? ? ? ? E|? ? NR ? E]; subst; [lia|eapply NR; reflexivity].
  - apply SG; [intros b0 r0 [= K _]; contradiction|]. cbn [class_items]. now rewrite (eqb_neq _ _ N).
Qed.
Lemma ord_inj a b : ord a = ord b -> a = b.
Proof. unfold ord. intros H. rewrite <- (ascii_N_embedding a), <- (ascii_N_embedding b). now rewrite H. Qed.
Lemma ord_bound a : (ord a < 256)%N. Proof. apply N_ascii_bounded. Qed.
Lemma ord_lower a : ord (lower a) = if (65 <=? ord a)%N && (ord a <=? 90)%N then (ord a + 32)%N else ord a.
Proof. unfold lower. destruct (_ && _) eqn:E; [|reflexivity]. unfold ord, chr. apply andb_true_iff in E as [_ E]. apply N.leb_le in E. apply N_ascii_embedding. unfold ord in E. lia. Qed.
Lemma ord_upper a : ord (upper a) = if (97 <=? ord a)%N && (ord a <=? 122)%N then (ord a - 32)%N else ord a.
Proof. unfold upper. destruct (_ && _) eqn:E; [|reflexivity]. unfold ord, chr. apply andb_true_iff in E as [_ E]. apply N.leb_le in E. apply N_ascii_embedding. unfold ord in E. lia. Qed.
Lemma same_char_spec ic a b : same_char ic a b = true <-> same_letter ic a b.
Proof.
  unfold same_char, same_letter. destruct ic.
  - rewrite Ascii.eqb_eq. split.
    + intros H. apply (f_equal ord) in H. rewrite !ord_lower in H.
      assert (K : ord a = ord b \/ ord a <> ord b) by lia. destruct K as [K|K]; [left; now apply ord_inj|right]. split; [reflexivity|].
      destruct (N.leb_spec 65 (ord a)), (N.leb_spec (ord a) 90), (N.leb_spec 65 (ord b)), (N.leb_spec (ord b) 90); cbn [andb] in H; lia.
    + intros [->|[_ H]]; [reflexivity|]. apply ord_inj. rewrite !ord_lower.
      destruct (N.leb_spec 65 (ord a)), (N.leb_spec (ord a) 90), (N.leb_spec 65 (ord b)), (N.leb_spec (ord b) 90); cbn [andb]; lia.
  - rewrite Ascii.eqb_eq. split; [now left|]. intros [H|[H _]]; [exact H|discriminate].
Qed.
Lemma in_class_spec ic body l x : class_items body = Some l ->
  in_class ic l x = true <-> exists y, same_letter ic y x /\ in_set body y.
Proof.
  intros E. pose proof (proj2 (class_items_ok body) l E) as H. unfold in_class. destruct ic.
  - rewrite orb_true_iff, !H. split.
    + intros [K|K]; [exists (lower x)|exists (upper x)]; (split; [|exact K]); unfold same_letter.
      * pose proof (ord_lower x) as O. destruct ((65 <=? ord x)%N && (ord x <=? 90)%N) eqn:B.
        -- right. split; [reflexivity|]. apply andb_true_iff in B as [B1 B2]. apply N.leb_le in B1, B2. lia.
        -- left. now apply ord_inj.
      * pose proof (ord_upper x) as O. destruct ((97 <=? ord x)%N && (ord x <=? 122)%N) eqn:B.
        -- right. split; [reflexivity|]. apply andb_true_iff in B as [B1 B2]. apply N.leb_le in B1, B2. lia.
        -- left. now apply ord_inj.
    + intros (y & S & K).
      assert (D : y = lower x \/ y = upper x).
      { destruct S as [->|[_ S]].
        - destruct ((65 <=? ord x)%N && (ord x <=? 90)%N) eqn:B.
          + right. apply ord_inj. rewrite ord_upper. apply andb_true_iff in B as [B1 B2]. apply N.leb_le in B1, B2.
            destruct (N.leb_spec 97 (ord x)); [lia|reflexivity].
          + left. apply ord_inj. now rewrite ord_lower, B.
        - destruct S as [[S1 S2]|[S1 S2]].
          + right. apply ord_inj. rewrite ord_upper. destruct (N.leb_spec 97 (ord x)), (N.leb_spec (ord x) 122); cbn [andb]; lia.
          + left. apply ord_inj. rewrite ord_lower. destruct (N.leb_spec 65 (ord x)), (N.leb_spec (ord x) 90); cbn [andb]; lia. }
      destruct D as [->| ->]; auto.
  - rewrite H. split; [intros K; exists x; split; [now left|exact K]|]. intros (y & [->|[S _]] & K); [exact K|discriminate].
Qed.

(** ** matching *)
Lemma all_some_cons {A} (x : option A) l r : all_some (x :: l) = Some r -> exists a r', x = Some a /\ all_some l = Some r' /\ r = a :: r'.
Proof. cbn. destruct x as [a|]; [|discriminate]. destruct (all_some l) as [r'|]; [|discriminate]. intros [= <-]. eauto. Qed.
Lemma x_many_inv ic ps s : matches ic (PMany :: ps) s -> exists a p, s = a ++ p /\ ~ In slash a /\ matches ic ps p.
Proof. intros H; inversion H; subst; eauto. Qed.
Lemma x_any_inv ic ps s : matches ic (PAny :: ps) s -> exists a p, s = a ++ p /\ matches ic ps p.
Proof. intros H; inversion H; subst; eauto. Qed.
Lemma gm_matches ic k : forall ps t, all_some (map tok ps) = Some t -> forall s,
  gm ic t k s = true <-> exists s1 s2, s = s1 ++ s2 /\ matches ic ps s1 /\ k s2 = true.
Proof.
  induction ps as [|q ps IH]; intros t Et s.
  - injection Et as <-. cbn. split.
    + intros H. exists [], s. repeat split; auto. constructor.
    + intros [s1 [s2 [-> [H K]]]]. inversion H; subst. exact K.
  - cbn [map] in Et. apply all_some_cons in Et as (tk & t' & E1 & E2 & ->). specialize (IH t' E2).
    assert (ONE : forall (P : ascii -> bool) (Q : ascii -> Prop), (forall x, P x = true <-> Q x) ->
      (forall s0, matches ic (q :: ps) s0 <-> exists x p, s0 = x :: p /\ Q x /\ matches ic ps p) ->
      (match s with x :: s' => P x && gm ic t' k s' | [] => false end) = true <->
      exists s1 s2, s = s1 ++ s2 /\ matches ic (q :: ps) s1 /\ k s2 = true).
    { intros P Q HP HQ. split.
      - destruct s as [|x s']; [discriminate|]. intros H. apply andb_true_iff in H as [H1 H2].
        apply IH in H2 as (s1 & s2 & -> & M & K). exists (x :: s1), s2. split; [reflexivity|]. split; [|exact K].
        apply HQ. exists x, s1. split; [reflexivity|]. split; [now apply HP|exact M].
      - intros (s1 & s2 & -> & M & K). apply HQ in M as (x & p & -> & M1 & M2). cbn [app]. apply andb_true_iff. split; [now apply HP|]. apply IH. eauto. }
    destruct q as [c| | | |neg body]; cbn [tok] in E1.
    + injection E1 as <-. cbn [gm]. apply (ONE (same_char ic c) (same_letter ic c)); [apply same_char_spec|].
      intros s0. split; [intros H; inversion H; subst; eauto|]. intros (x & p & -> & M1 & M2). now constructor.
    + injection E1 as <-. cbn [gm]. apply (ONE (fun x => negb (Ascii.eqb x slash)) (fun x => x <> slash)).
      * intros x. destruct (Ascii.eqb_spec x slash); cbn; split; congruence.
      * intros s0. split; [intros H; inversion H; subst; eauto|]. intros (x & p & -> & M1 & M2). now constructor.
    + injection E1 as <-. clear ONE. split.
      * induction s as [|x s IHs]; cbn [gm]; intros H; apply orb_true_iff in H as [H|H]; try discriminate.
        -- apply IH in H as (s1 & s2 & E & T & K). exists s1, s2. repeat split; auto. now apply (X_many ic []).
        -- apply IH in H as (s1 & s2 & E & T & K). exists s1, s2. repeat split; auto. now apply (X_many ic []).
        -- apply andb_true_iff in H as [N H]. apply IHs in H as (s1 & s2 & -> & T & K). exists (x :: s1), s2. repeat split; auto.
           apply x_many_inv in T as (s0 & p & -> & Ns & T). apply (X_many ic (x :: s0)); auto. intros [->|I]; [|auto]. now rewrite Ascii.eqb_refl in N.
      * intros (s1 & s2 & -> & H & K). apply x_many_inv in H as (s0 & p & -> & H2 & H).
        assert (G : gm ic t' k (p ++ s2) = true) by (apply IH; eauto).
        rewrite <- app_assoc. induction s0 as [|x s0 IHs]; cbn [gm app].
        -- destruct (p ++ s2); now rewrite G.
        -- apply orb_true_iff; right. apply andb_true_iff; split.
           ++ destruct (Ascii.eqb x slash) eqn:E; [|reflexivity]. apply eqb_true in E; subst. destruct H2; now left.
           ++ apply IHs. intros I; apply H2; now right.
    + injection E1 as <-. clear ONE. split.
      * induction s as [|x s IHs]; cbn [gm]; intros H; apply orb_true_iff in H as [H|H]; try discriminate.
        -- apply IH in H as (s1 & s2 & E & T & K). exists s1, s2. repeat split; auto. now apply (X_any ic []).
        -- apply IH in H as (s1 & s2 & E & T & K). exists s1, s2. repeat split; auto. now apply (X_any ic []).
        -- apply IHs in H as (s1 & s2 & -> & T & K). exists (x :: s1), s2. repeat split; auto.
           apply x_any_inv in T as (s0 & p & -> & T). now apply (X_any ic (x :: s0)).
      * intros (s1 & s2 & -> & H & K). apply x_any_inv in H as (s0 & p & -> & H).
        assert (G : gm ic t' k (p ++ s2) = true) by (apply IH; eauto).
        rewrite <- app_assoc. induction s0 as [|x s0 IHs]; cbn [gm app].
        -- destruct (p ++ s2); now rewrite G.
        -- apply orb_true_iff; right. exact IHs.
    + destruct (class_items body) as [l|] eqn:EC; [|discriminate]. injection E1 as <-. cbn [gm].
      apply (ONE (fun x => xorb neg (in_class ic l x)) (fun x => if neg then ~ (exists y, same_letter ic y x /\ in_set body y) else exists y, same_letter ic y x /\ in_set body y)).
      * intros x. pose proof (in_class_spec ic body l x EC) as H. destruct neg; cbn [xorb].
        -- destruct (in_class ic l x); split; try congruence; [intros K; exfalso; apply K; now apply H|intros _ K; apply H in K; discriminate].
        -- destruct (in_class ic l x); exact H.
      * intros s0. split; [intros H; inversion H; subst; eauto|]. intros (x & p & -> & M1 & M2). destruct neg; now constructor.
Qed.
Lemma hit_matches ic g r ps p : reads g ps -> glob_compile ic g = Some r ->
  (glob_hit r p = true <-> exists p1 p2, p = p1 ++ p2 /\ matches ic ps p1 /\ (p2 = [] \/ p2 = [nl] \/ exists x, p2 = slash :: x)).
Proof.
  intros R C. unfold glob_compile in C. unfold glob_toks in C. rewrite (reads_toks g ps R) in C by lia.
  destruct (all_some (map tok ps)) as [t|] eqn:Et; [|discriminate]. destruct (glob_prefixes _); [|discriminate].
  match type of C with option_map _ ?X = _ => destruct X; [|discriminate] end. injection C as <-.
  unfold glob_hit; cbn [g_ic g_full]. rewrite (gm_matches ic end_or_slash ps t Et).
  split; intros [s1 [s2 [-> [M K]]]]; exists s1, s2; repeat split; auto; now apply end_or_slash_spec.
Qed.

(** ** C16 *)
(** Every pattern can be read. *)
Theorem C16_pattern_readable : forall g, exists ps, reads g ps.
Proof. intros g. apply (reads_total (length g)). lia. Qed.

(** What a globbing pattern says: files whose path, or the path of a directory above, matches it; an
    excluding pattern says nothing of the others, an including one may have them scanned. *)
Theorem C16_any_glob : forall c arg inc f rp ps,
  looks_like_glob arg = true -> arg <> bs "**" -> glob_sf c arg inc = Some f ->
  let '(ic, g) := pattern_of arg in reads g ps -> ~ In nl (rp_path rp) ->
  (says c f rp = Says (Some (of_bool inc)) <->
   exists p rest, rp_path rp = p ++ rest /\ matches ic ps p /\ (rest = [] \/ exists r, rest = slash :: r)) /\
  (says c f rp = Says (Some (of_bool inc)) \/ says c f rp = Says None \/ inc = true /\ says c f rp = Says (Some Doscan)).
Proof.
  intros c arg inc f rp ps L N E. unfold glob_sf in E. apply beq_bytes_false in N. rewrite N, L in E. cbn [negb] in E.
  unfold pattern_of. unfold glob_build in E. change (length ignorecase) with 11%nat in E.
  assert (K : forall ic g, match glob_compile ic g with Some r => if glob_hit r (path_of c []) || scan_hit r (path_of c []) then Some (SfGlob r inc) else None | None => None end = Some f ->
    reads g ps -> ~ In nl (rp_path rp) ->
    (says c f rp = Says (Some (of_bool inc)) <->
     exists p rest, rp_path rp = p ++ rest /\ matches ic ps p /\ (rest = [] \/ exists r, rest = slash :: r)) /\
    (says c f rp = Says (Some (of_bool inc)) \/ says c f rp = Says None \/ inc = true /\ says c f rp = Says (Some Doscan))).
  { intros ic g Eg R NL. destruct (glob_compile ic g) as [r|] eqn:C; [|discriminate]. destruct (_ || _); [|discriminate]. injection Eg as <-.
    unfold says. cbn [call fst]. pose proof (hit_matches ic g r ps (rp_path rp) R C) as H. split.
    - transitivity (glob_hit r (rp_path rp) = true).
      + destruct (glob_hit r (rp_path rp)); [tauto|]. split; [|discriminate]. destruct inc, (scan_hit r (rp_path rp)); discriminate.
      + rewrite H. split; intros [p1 [p2 [E1 [M K]]]]; exists p1, p2; repeat split; auto.
        * destruct K as [K|[K|K]]; auto. destruct NL. rewrite E1, K. apply in_or_app; right; now left.
        * destruct K; auto.
    - destruct (glob_hit r (rp_path rp)); [now left|]. destruct inc; cbn [andb]; [|auto]. destruct (scan_hit r (rp_path rp)); auto. }
  destruct (has_ignorecase arg); now apply K.
Qed.
(** A pattern is refused only for a range out of order, for two slashes in a row, or when it can't match anything in the
    directory backed up.  *)
Lemma all_some_none {A B} (f : A -> option B) l : all_some (map f l) <> None <-> forall x, In x l -> f x <> None.
Proof.
  induction l as [|x l IH]; cbn; [split; [intros _ x []|discriminate]|].
  destruct (f x) as [y|] eqn:E.
  - transitivity (all_some (map f l) <> None); [destruct (all_some (map f l)); cbn; split; congruence|].
    rewrite IH. split; [intros H z [<-|Hz]; [congruence|now apply H]|intros H z Hz; apply H; now right].
  - split; [congruence|]. intros H _. now apply (H x (or_introl eq_refl)).
Qed.
Theorem C16_pattern_accepted : forall g ps, reads g ps ->
  (glob_toks g <> None <-> forall neg body, In (PSet neg body) ps -> set_ok body).
Proof.
  intros g ps R. unfold glob_toks. rewrite (reads_toks g ps R) by lia. rewrite all_some_none. split.
  - intros H neg body I. specialize (H _ I). cbn [tok] in H. apply class_items_ok. intros K. now rewrite K in H.
  - intros H [c| | | |neg body] I; cbn [tok]; try discriminate. specialize (H neg body I). apply class_items_ok in H.
    destruct (class_items body); [discriminate|congruence].
Qed.

(** Size limits: a regular file is excluded when it is larger than the maximum, or smaller than the minimum;
    nothing is said of other files. *)
Theorem C16_size : forall c n (max : bool) rp,
  says c (SfSize n max) rp =
  match rp_data rp with
  | Some (mk_finfo (KReg size) _) =>
      if (if max then n <? size else size <? n) then Says (Some Exclude) else Says None
  | _ => Says None
  end.
Proof.
  intros c n max rp. unfold says. cbn [call fst]. unfold rp_isreg. destruct (rp_data rp) as [[k d]|]; [|reflexivity].
  destruct k; try reflexivity. cbn [fi_kind]. destruct max; destruct (Z.leb_spec size n), (Z.ltb_spec n size), (Z.leb_spec n size), (Z.ltb_spec size n); try reflexivity; lia.
Qed.

(** ** Examples *)
Definition exctx : sctx := mk_sctx (bs "/b") (fun _ _ => false).
Definition exfile (n : bytes) : srp := mk_srp [n] (path_of exctx [n]) (Some (mk_finfo (KReg 3) 0)).
Example C16_any_glob_ex :
  reads (bs "/b/[!a-c]\*[x]") [PChar "/"; PChar "b"; PChar "/"; PSet true (bs "a-c"); PChar "*"; PSet false (bs "x")] /\
  exists f, glob_sf exctx (bs "/b/[!a-c]\*[x]") false = Some f /\
    says exctx f (exfile (bs "d*x")) = Says (Some Exclude) /\ says exctx f (exfile (bs "b*x")) = Says None /\
    says exctx f (exfile (bs "dqx")) = Says None.
Proof.
  split.
  - repeat (apply R_char; [reflexivity|]). apply (R_set _ true (bs "a-c") (bs "\*[x]")).
    { split; [discriminate|]. split; [cbn; intuition discriminate|]. left. split; [reflexivity|]. exists "!"%char. now split. }
    apply R_escape. apply (R_set _ false (bs "x") []); [|constructor].
    split; [discriminate|]. split; [cbn; tauto|]. right. repeat split.
  - eexists. repeat split; vm_compute; reflexivity.
Qed.
Example C16_ignorecase_ex : exists f, glob_sf exctx (bs "ignorecase:/b/[A-C]*.txt") true = Some f /\
    says exctx f (exfile (bs "b.TXT")) = Says (Some Include) /\ says exctx f (exfile (bs "d.txt")) = Says None.
Proof. eexists. repeat split; vm_compute; reflexivity. Qed.

Print Assumptions C16_pattern_readable.
Print Assumptions C16_any_glob.
Print Assumptions C16_pattern_accepted.
Print Assumptions C16_size.

(** drives keep their slash, like the root *)
Example glob_prefixes_ex : glob_prefixes (bs "z:/x") = Some [bs "z:/"; bs "z:/x"] /\ glob_prefixes (bs "a:/x") = Some [bs "a:/"; bs "a:/x"] /\
  glob_prefixes (bs "Z:/x") = Some [bs "Z:/"; bs "Z:/x"] /\ glob_prefixes (bs "A:/x") = Some [bs "A:/"; bs "A:/x"] /\
  glob_prefixes (bs "*:/x") = Some [bs "*:/"; bs "*:/x"] /\ glob_prefixes (bs "/x") = Some [bs "/"; bs "/x"] /\
  glob_prefixes (bs "{:/x") = Some [bs "{:"; bs "{:/x"] /\ glob_prefixes (bs "@:/x") = Some [bs "@:"; bs "@:/x"] /\
  glob_prefixes (bs "[:/x") = Some [bs "[:"; bs "[:/x"] /\ glob_prefixes (bs "`:/x") = Some [bs "`:"; bs "`:/x"].
Proof. vm_compute. repeat split; reflexivity. Qed.

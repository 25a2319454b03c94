(** Lemmas about the globs of M_Select *)
From Coq Require Import List ZArith Bool Ascii Lia Permutation.
From Verif Require Import Base L_Base M_Iter L_Iter P_Iter M_Select S_Select L_Select.
Import List ListNotations.
Local Open Scope nat_scope.

Lemma eqb_true a b : Ascii.eqb a b = true -> a = b.
Proof. apply Ascii.eqb_eq. Qed.

(** what a list of parts matches *)
Inductive tmatch : list gtok -> bytes -> Prop :=
| T_end : tmatch [] []
| T_lit : forall c t p, tmatch t p -> tmatch (GLit c :: t) (c :: p)
| T_quest : forall x t p, x <> slash -> tmatch t p -> tmatch (GQuest :: t) (x :: p)
| T_star : forall s t p, ~ In slash s -> tmatch t p -> tmatch (GStar :: t) (s ++ p)
| T_dstar : forall s t p, tmatch t p -> tmatch (GDstar :: t) (s ++ p)
| T_class : forall neg it x t p, xorb neg (in_class false it x) = true -> tmatch t p -> tmatch (GClass neg it :: t) (x :: p).

Lemma tm_dstar_inv t s : tmatch (GDstar :: t) s -> exists a p, s = a ++ p /\ tmatch t p.
Proof. intros H; inversion H; subst; eauto. Qed.
Lemma tm_star_inv t s : tmatch (GStar :: t) s -> exists a p, s = a ++ p /\ ~ In slash a /\ tmatch t p.
Proof. intros H; inversion H; subst; eauto. Qed.

Lemma gm_spec t k : forall s, gm false t k s = true <-> exists s1 s2, s = s1 ++ s2 /\ tmatch t s1 /\ k s2 = true.
Proof.
  induction t as [|tk t IH]; intros s.
  - cbn. split.
    + intros H. exists [], s. repeat split; auto. constructor.
    + intros [s1 [s2 [-> [H K]]]]. inversion H; subst. exact K.
  - destruct tk as [c| | | |neg it].
    + cbn [gm]. split.
      * destruct s as [|x s]; [discriminate|]. intros H. apply andb_true_iff in H as [H1 H2].
        apply eqb_true in H1; subst x. apply IH in H2 as [s1 [s2 [-> [T K]]]].
        exists (c :: s1), s2. repeat split; auto. now constructor.
      * intros [s1 [s2 [-> [H K]]]]. inversion H; subst. cbn [app]. apply andb_true_iff; split.
        -- cbn. apply Ascii.eqb_refl.
        -- apply IH; eauto.
    + split.
      * induction s as [|x s IHs]; cbn [gm]; intros H; apply orb_true_iff in H as [H|H]; try discriminate.
        -- apply IH in H as [s1 [s2 [E [T K]]]]. symmetry in E; apply app_eq_nil in E as [-> ->].
           exists [], []. repeat split; auto. now apply (T_dstar []).
        -- apply IH in H as [s1 [s2 [E [T K]]]]. exists s1, s2. repeat split; auto. now apply (T_dstar []).
        -- apply IHs in H as [s1 [s2 [-> [T K]]]]. exists (x :: s1), s2. repeat split; auto.
           apply tm_dstar_inv in T as [s0 [p [-> T]]]. now apply (T_dstar (x :: s0)).
      * intros [s1 [s2 [-> [H K]]]]. apply tm_dstar_inv in H as [s0 [p [-> H]]].
        assert (G : gm false t k (p ++ s2) = true) by (apply IH; eauto).
        rewrite <- app_assoc. induction s0 as [|x s0 IHs]; cbn [gm app].
        -- destruct (p ++ s2); now rewrite G.
        -- apply orb_true_iff; right. exact IHs.
    + split.
      * induction s as [|x s IHs]; cbn [gm]; intros H; apply orb_true_iff in H as [H|H]; try discriminate.
        -- apply IH in H as [s1 [s2 [E [T K]]]]. symmetry in E; apply app_eq_nil in E as [-> ->].
           exists [], []. repeat split; auto. now apply (T_star []).
        -- apply IH in H as [s1 [s2 [E [T K]]]]. exists s1, s2. repeat split; auto. now apply (T_star []).
        -- apply andb_true_iff in H as [N H].
           apply IHs in H as [s1 [s2 [-> [T K]]]]. exists (x :: s1), s2. repeat split; auto.
           apply tm_star_inv in T as [s0 [p [-> [Ns T]]]]. apply (T_star (x :: s0)); auto. intros [->|I]; [|auto].
           now rewrite Ascii.eqb_refl in N.
      * intros [s1 [s2 [-> [H K]]]]. apply tm_star_inv in H as [s0 [p [-> [H2 H]]]].
        assert (G : gm false t k (p ++ s2) = true) by (apply IH; eauto).
        rewrite <- app_assoc. induction s0 as [|x s0 IHs]; cbn [gm app].
        -- destruct (p ++ s2); now rewrite G.
        -- apply orb_true_iff; right. apply andb_true_iff; split.
           ++ destruct (Ascii.eqb x slash) eqn:E; [|reflexivity]. apply eqb_true in E; subst. destruct H2; now left.
           ++ apply IHs. intros I; apply H2; now right.
    + cbn [gm]. split.
      * destruct s as [|x s]; [discriminate|]. intros H. apply andb_true_iff in H as [H1 H2].
        apply IH in H2 as [s1 [s2 [-> [T K]]]].
        exists (x :: s1), s2. repeat split; auto. constructor; auto. intros ->. now rewrite Ascii.eqb_refl in H1.
      * intros [s1 [s2 [-> [H K]]]]. inversion H; subst. cbn [app]. apply andb_true_iff; split.
        -- destruct (Ascii.eqb x slash) eqn:E; [|reflexivity]. now apply eqb_true in E.
        -- apply IH; eauto.
    + cbn [gm]. split.
      * destruct s as [|x s]; [discriminate|]. intros H. apply andb_true_iff in H as [H1 H2].
        apply IH in H2 as [s1 [s2 [-> [T K]]]].
        exists (x :: s1), s2. repeat split; auto. now constructor.
      * intros [s1 [s2 [-> [H K]]]]. inversion H; subst. cbn [app]. apply andb_true_iff; split; auto.
        apply IH; eauto.
Qed.

Lemma split_app2 sep s t : split_on sep (s ++ sep :: t) = split_on sep s ++ split_on sep t.
Proof.
  induction s as [|c s IH]; cbn [app split_on].
  - now rewrite Ascii.eqb_refl.
  - rewrite IH. destruct (Ascii.eqb c sep); [reflexivity|].
    pose proof (split_on_nonempty sep s). destruct (split_on sep s); [congruence|reflexivity].
Qed.

Definition no_br (g : bytes) : Prop := ~ In c_open g /\ ~ In c_bs g.
Lemma no_br_cons c g : no_br (c :: g) -> c <> c_open /\ c <> c_bs /\ no_br g.
Proof. unfold no_br; cbn. intuition congruence. Qed.

Lemma eqb_neq a b : a <> b -> Ascii.eqb a b = false.
Proof. apply Ascii.eqb_neq. Qed.

Lemma gm_star_inv g p : glob_matches (c_star :: g) p ->
  (exists g' s p', g = c_star :: g' /\ p = s ++ p' /\ glob_matches g' p') \/
  ((forall g', g <> c_star :: g') /\ exists s p', p = s ++ p' /\ ~ In slash s /\ glob_matches g p').
Proof. intros H; inversion H; subst; try discriminate; eauto 10. Qed.
Lemma gm_quest_inv g p : glob_matches (c_quest :: g) p -> exists x p', p = x :: p' /\ x <> slash /\ glob_matches g p'.
Proof. intros H; inversion H; subst; try discriminate; eauto 10. Qed.
Lemma gm_char_inv c g p : c <> c_star -> c <> c_quest -> glob_matches (c :: g) p -> exists p', p = c :: p' /\ glob_matches g p'.
Proof. intros N1 N2 H; inversion H; subst; try congruence; eauto. Qed.
Lemma gm_nil_inv p : glob_matches [] p -> p = [].
Proof. now inversion 1. Qed.
Lemma tm_nil_inv p : tmatch [] p -> p = [].
Proof. now inversion 1. Qed.

Lemma glob_toks_spec f : forall g, length g <= f -> no_br g ->
  exists t, glob_toks_fuel f g = Some t /\ forall p, tmatch t p <-> glob_matches g p.
Proof.
  induction f as [f IH] using lt_wf_ind. intros g L N.
  destruct f as [|f].
  { destruct g; [|cbn in L; lia]. exists []. split; [reflexivity|]. intros p; split; intros H; inversion H; constructor. }
  destruct g as [|c g].
  { exists []. split; [reflexivity|]. intros p; split; intros H; inversion H; constructor. }
  apply no_br_cons in N as [N1 [N2 N]]. cbn [length] in L.
  cbn [glob_toks_fuel]. rewrite (eqb_neq _ _ N2), (eqb_neq _ _ N1).
  destruct (Ascii.eqb c c_star) eqn:Es.
  - apply eqb_true in Es; subst c. destruct g as [|d g].
    + exists [GStar]. split; [reflexivity|]. intros p; split; intros H.
      * apply tm_star_inv in H as [s [p' [-> [Hs H]]]]. apply tm_nil_inv in H as ->. apply G_star; auto; [discriminate|constructor].
      * apply gm_star_inv in H as [[g' [s [p' [E _]]]]|[_ [s [p' [-> [Hs H]]]]]]; [discriminate|].
        apply gm_nil_inv in H as ->. apply T_star; auto. constructor.
    + destruct (Ascii.eqb d c_star) eqn:Ed.
      * apply eqb_true in Ed; subst d. apply no_br_cons in N as [_ [_ N]]. cbn [length] in L.
        destruct (IH f ltac:(lia) g ltac:(lia) N) as [t [-> H]]. exists (GDstar :: t). split; [reflexivity|].
        intros p; split; intros M.
        -- apply tm_dstar_inv in M as [s [p' [-> M]]]. apply G_dstar. now apply H.
        -- apply gm_star_inv in M as [[g' [s [p' [[= <-] [-> M]]]]]|[X _]]; [|now destruct (X g)].
           apply T_dstar. now apply H.
      * destruct (IH f ltac:(lia) (d :: g) (le_S_n _ _ L) N) as [t [-> H]]. exists (GStar :: t). split; [reflexivity|].
        assert (Nd : forall g', d :: g <> c_star :: g') by (intros g' [= -> _]; now rewrite Ascii.eqb_refl in Ed).
        intros p; split; intros M.
        -- apply tm_star_inv in M as [s [p' [-> [Hs M]]]]. apply G_star; auto. now apply H.
        -- apply gm_star_inv in M as [[g' [s [p' [E _]]]]|[_ [s [p' [-> [Hs M]]]]]]; [now destruct (Nd g')|].
           apply T_star; auto. now apply H.
  - destruct (Ascii.eqb c c_quest) eqn:Eq.
    + apply eqb_true in Eq; subst c.
      destruct (IH f ltac:(lia) g ltac:(lia) N) as [t [-> H]]. exists (GQuest :: t). split; [reflexivity|].
      intros p; split; intros M.
      * inversion M; subst. apply G_quest; auto. now apply H.
      * apply gm_quest_inv in M as [x [p' [-> [X M]]]]. apply T_quest; auto. now apply H.
    + destruct (IH f ltac:(lia) g ltac:(lia) N) as [t [-> H]]. exists (GLit c :: t). split; [reflexivity|].
      intros p; split; intros M.
      * inversion M; subst. apply G_char; [|now apply H].
        unfold is_special. rewrite Es, Eq, (eqb_neq _ _ N1), (eqb_neq _ _ N2). reflexivity.
      * apply gm_char_inv in M as [p' [-> M]].
        -- apply T_lit. now apply H.
        -- intros ->; now rewrite Ascii.eqb_refl in Es.
        -- intros ->; now rewrite Ascii.eqb_refl in Eq.
Qed.
Lemma glob_toks_ok g : no_br g -> exists t, glob_toks g = Some t /\ forall p, tmatch t p <-> glob_matches g p.
Proof. intros. now apply glob_toks_spec. Qed.

(** the directories above a match are scanned *)
Lemma parent_glob g p : glob_matches g p -> forall q r, p = q ++ slash :: r ->
  (exists g1 g2, trunc_dstar g = g1 ++ slash :: g2 /\ glob_matches g1 q) \/ glob_matches (trunc_dstar g) q.
Proof.
  induction 1 as [|c g p S M IH|x g p N M IH|g s p N Ns M IH|g s p M IH]; intros q r E.
  - destruct q; discriminate.
  - assert (Ec : Ascii.eqb c c_star = false).
    { unfold is_special in S. destruct (Ascii.eqb c c_star); [discriminate|reflexivity]. }
    cbn [trunc_dstar]. rewrite Ec. cbn [andb]. destruct q as [|y q].
    + injection E as -> ->. left. exists [], (trunc_dstar g). split; [reflexivity|constructor].
    + injection E as <- E. destruct (IH q r E) as [[g1 [g2 [E2 M2]]]|M2].
      * left. exists (c :: g1), g2. rewrite E2. split; [reflexivity|now constructor].
      * right. now constructor.
  - change (trunc_dstar (c_quest :: g)) with (c_quest :: trunc_dstar g). destruct q as [|y q].
    + injection E as -> ->. now destruct N.
    + injection E as <- E. destruct (IH q r E) as [[g1 [g2 [E2 M2]]]|M2].
      * left. exists (c_quest :: g1), g2. rewrite E2. split; [reflexivity|now constructor].
      * right. now constructor.
  - assert (Et : trunc_dstar (c_star :: g) = c_star :: trunc_dstar g).
    { cbn [trunc_dstar]. destruct g as [|d g]; [now rewrite andb_false_r|].
      destruct (Ascii.eqb d c_star) eqn:Ed; [apply eqb_true in Ed; subst; now destruct (N g)|].
      now rewrite andb_false_r. }
    assert (exists q', q = s ++ q' /\ p = q' ++ slash :: r) as [q' [-> E']].
    { clear -Ns E. revert q E. induction s as [|x s IHs]; intros q E; [now exists q|].
      destruct q as [|y q]; [injection E as -> _; destruct Ns; now left|].
      injection E as <- E. destruct (IHs (fun H => Ns (or_intror H)) q E) as [q' [-> ->]]. now exists q'. }
    rewrite Et. destruct (IH q' r E') as [[g1 [g2 [E2 M2]]]|M2].
    + left. exists (c_star :: g1), g2. rewrite E2. split; [reflexivity|]. apply G_star; auto.
      intros g' ->. destruct g as [|d g]; [discriminate E2|].
      assert (Hd : d <> c_star) by (intros ->; now destruct (N g)).
      cbn [trunc_dstar] in E2. rewrite (eqb_neq _ _ Hd) in E2. cbn [andb] in E2. cbn [app] in E2. congruence.
    + right. apply G_star; auto. intros g' E2. destruct g as [|d g]; [discriminate E2|].
      assert (Hd : d <> c_star) by (intros ->; now destruct (N g)).
      cbn [trunc_dstar] in E2. rewrite (eqb_neq _ _ Hd) in E2. cbn [andb] in E2. congruence.
  - right. cbn [trunc_dstar]. rewrite !Ascii.eqb_refl. cbn [andb].
    rewrite <- (app_nil_r q). apply G_dstar. constructor.
Qed.

Lemma initials_pre {A} (l1 l2 : list A) : l1 <> [] -> In l1 (initials (l1 ++ l2)).
Proof.
  induction l1 as [|x l1 IH]; [congruence|]. intros _. cbn. destruct l1 as [|y l1]; [now left|].
  right. apply in_map, IH. discriminate.
Qed.

Lemma no_br_in g h : (forall x, In x h -> In x g) -> no_br g -> no_br h.
Proof. unfold no_br. intuition. Qed.
Lemma trunc_in s x : In x (trunc_dstar s) -> In x s.
Proof.
  induction s as [|c s IH]; [auto|]. cbn [trunc_dstar]. destruct s as [|d s].
  - rewrite andb_false_r. cbn. tauto.
  - destruct (Ascii.eqb c c_star) eqn:E1; cbn [andb].
    + destruct (Ascii.eqb d c_star) eqn:E2.
      * apply eqb_true in E1; apply eqb_true in E2; subst. cbn. tauto.
      * intros [->|H]; [now left|right; auto].
    + intros [->|H]; [now left|right; auto].
Qed.
Lemma initials_in {A} (l h : list A) x : In h (initials l) -> In x h -> In x l.
Proof.
  revert h; induction l as [|y l IH]; intros h; cbn; [tauto|]. intros [<-|H]; [cbn; tauto|].
  apply in_map_iff in H as [h' [<- H]]. intros [->|Hx]; eauto.
Qed.
Lemma join_in sep (l : list bytes) x : In x (join_with [sep] l) -> x = sep \/ exists b, In b l /\ In x b.
Proof.
  induction l as [|b l IH]; [cbn; tauto|]. cbn [join_with]. destruct l as [|b' l].
  - intros H. right. exists b. cbn; auto.
  - rewrite in_app_iff. cbn [app]. intros [H|[<-|H]]; [right; exists b; cbn; auto|now left|].
    apply IH in H as [->|[b0 [H1 H2]]]; [now left|right; exists b0; split; [now right|exact H2]].
Qed.
Lemma split_in sep s b x : In b (split_on sep s) -> In x b -> In x s.
Proof.
  revert b; induction s as [|c s IH]; intros b; cbn [split_on].
  - intros [<-|[]] [].
  - destruct (Ascii.eqb c sep).
    + intros [<-|H]; [intros []|]. intros Hx. right. eauto.
    + destruct (split_on sep s) as [|f fs] eqn:E.
      * intros [<-|[]] [->|[]]; now left.
      * intros [<-|H]; [|intros; right; eapply IH; [right; exact H|assumption]].
        intros [->|Hx]; [now left|right; eapply IH; [now left|exact Hx]].
Qed.

Lemma all_some_in {A} (l : list (option A)) r x : all_some l = Some r -> In (Some x) l -> In x r.
Proof.
  revert r; induction l as [|[a|] l IH]; cbn; intros r; try discriminate; [tauto|].
  destruct (all_some l) as [r'|]; [|discriminate]. intros [= <-] [[= ->]|H]; cbn; auto.
Qed.

Lemma scan_parent g r p q rest : no_br g -> glob_compile false g = Some r -> glob_matches g p ->
  p = q ++ slash :: rest -> (exists q', q = slash :: q') -> scan_hit r q = true.
Proof.
  intros N C M E [q' Eq]. unfold glob_compile in C.
  destruct (glob_toks g) as [t|]; [|discriminate].
  destruct (glob_prefixes (trunc_dstar g)) as [ps|] eqn:Ep; [|discriminate].
  destruct (all_some (map glob_toks ps)) as [sc|] eqn:Es; [|discriminate]. injection C as <-.
  unfold glob_prefixes in Ep. destruct (has_empty _); [discriminate|]. injection Ep as <-.
  unfold scan_hit. cbn [g_scan g_ic].
  (* the pattern which fits *)
  assert (X : exists h, glob_matches h q /\ (forall x, In x h -> In x g) /\
                In h (map (join_with [slash]) (initials (split_on slash (trunc_dstar g))))).
  { destruct (parent_glob g p M q rest E) as [[g1 [g2 [E1 M1]]]|M1].
    - exists g1. split; [exact M1|]. split.
      + intros x Hx. apply trunc_in. rewrite E1. apply in_or_app; now left.
      + rewrite E1, split_app2. apply in_map_iff. exists (split_on slash g1). split; [apply join_split|].
        apply initials_pre, split_on_nonempty.
    - exists (trunc_dstar g). split; [exact M1|]. split; [intros x; apply trunc_in|].
      apply in_map_iff. exists (split_on slash (trunc_dstar g)). split; [apply join_split|].
      rewrite <- (app_nil_r (split_on slash (trunc_dstar g))) at 2. apply initials_pre, split_on_nonempty. }
  destruct X as [h [Mh [Sub Hin]]].
  assert (Hin' : In h (fix_root (map (join_with [slash]) (initials (split_on slash (trunc_dstar g)))))).
  { destruct (map (join_with [slash]) (initials (split_on slash (trunc_dstar g)))) as [|b l] eqn:El; [exact Hin|].
    cbn [fix_root]. destruct Hin as [->|Hin]; [|now right].
    destruct (negb (nonempty h) || is_drive h) eqn:B; [|now left]. exfalso.
    apply orb_true_iff in B as [B|B].
    - destruct h; [|discriminate]. inversion Mh; subst; discriminate.
    - destruct h as [|c1 [|c2 [|? ?]]]; try discriminate. cbn [is_drive] in B.
      apply andb_true_iff in B as [B1 B2]. apply eqb_true in B2; subst c2. subst q.
      inversion Mh as [|? ? ? S1 M1|x ? ? X1 M1|? s p0 Ns Ns2 M1 Eg Ep|? s p0 M1]; subst; try discriminate; try congruence.
      inversion M1; subst; try discriminate.
      destruct s as [|y s]; [discriminate|]. injection Ep as -> _. apply Ns2; now left. }
  destruct (glob_toks_ok h (no_br_in _ _ Sub N)) as [th [Et Ht]].
  assert (In th sc) by (eapply all_some_in; [exact Es|]; apply in_map_iff; exists h; split; [exact Et|exact Hin']).
  apply existsb_exists. exists th. split; [assumption|]. apply gm_spec. exists q, [].
  rewrite app_nil_r. repeat split. now apply Ht.
Qed.

Lemma end_or_slash_spec s : end_or_slash s = true <-> s = [] \/ s = [nl] \/ exists r, s = slash :: r.
Proof.
  unfold end_or_slash, at_end. destruct s as [|c s].
  - cbn. tauto.
  - rewrite orb_true_iff, Ascii.eqb_eq. destruct s as [|d s].
    + rewrite Ascii.eqb_eq. split; [intros [->| ->]; eauto|].
      intros [H|[[= ->]|[r [= -> _]]]]; [discriminate|auto|auto].
    + split; [intros [H| ->]; [discriminate|eauto]|].
      intros [H|[H|[r [= -> _]]]]; [discriminate|discriminate|auto].
Qed.
Lemma glob_hit_spec g r p : no_br g -> glob_compile false g = Some r ->
  (glob_hit r p = true <-> exists p1 p2, p = p1 ++ p2 /\ glob_matches g p1 /\ (p2 = [] \/ p2 = [nl] \/ exists x, p2 = slash :: x)).
Proof.
  intros N C. unfold glob_compile in C. destruct (glob_toks_ok g N) as [t [Et Ht]]. rewrite Et in C.
  destruct (glob_prefixes _); [|discriminate]. destruct (all_some _); [|discriminate]. injection C as <-.
  unfold glob_hit; cbn [g_ic g_full]. rewrite gm_spec.
  split; intros [s1 [s2 [-> [M K]]]]; exists s1, s2; repeat split; try (now apply Ht); now apply end_or_slash_spec.
Qed.

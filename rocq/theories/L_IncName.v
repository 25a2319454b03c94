(* L_IncName.v -- proofs about M_IncName.v *)
From Verif Require Import Base L_Base M_Time L_Time M_IncName.

Lemma join_app sep (a b : list bytes) : a <> [] -> b <> [] ->
  join_with sep (a ++ b) = join_with sep a ++ sep ++ join_with sep b.
Proof.
  intros Ha Hb. induction a as [|x a IH]; [easy|].
  destruct a as [|y a].
  - cbn [app]. destruct b as [|z b]; [easy|]. reflexivity.
  - change (join_with sep (x :: y :: a)) with (x ++ sep ++ join_with sep (y :: a)).
    change ((x :: y :: a) ++ b) with (x :: (y :: a ++ b)).
    change (join_with sep (x :: y :: a ++ b)) with (x ++ sep ++ join_with sep ((y :: a) ++ b)).
    rewrite IH by easy. now rewrite !app_assoc.
Qed.

(* splitting base.f1.f2... where the f have no separator *)
Lemma split_on_join_tail sep base l :
  l <> [] -> (forall x, In x l -> ~ In sep x) ->
  split_on sep (base ++ sep :: join_with [sep] l) = split_on sep base ++ l.
Proof.
  intros Hl Hs.
  rewrite <- (join_split sep base) at 1.
  rewrite <- (split_join sep (split_on sep base ++ l)).
  - rewrite join_app; [reflexivity|apply split_on_nonempty|easy].
  - pose proof (split_on_nonempty sep base). destruct (split_on sep base); easy.
  - intros x Hx. apply in_app_or in Hx. destruct Hx as [Hx|Hx]; [now apply (split_on_no_sep_in sep base)|auto].
Qed.

Lemma label_no_dot s : forallb label_byte s = true -> ~ In dot s.
Proof.
  intros H Hin. rewrite forallb_forall in H. specialize (H _ Hin). discriminate.
Qed.
Lemma label_ascii s : forallb label_byte s = true -> forallb (fun c => (ord c <? 128)%N) s = true.
Proof.
  rewrite !forallb_forall. intros H x Hx. specialize (H x Hx). unfold label_byte in H.
  apply orb_true_iff in H. apply N.ltb_lt. destruct H as [H|H].
  - apply is_digit_ord in H. lia.
  - apply mem_byte_In in H. cbn in H. decompose [or] H; subst; try reflexivity. easy.
Qed.

Lemma inc_type_cases ty : In ty inc_types ->
  ~ In dot ty /\ beq_bytes ty (bs "gz") = false /\ existsb (beq_bytes ty) inc_types = true.
Proof.
  intros H. unfold inc_types in H. cbn [In] in H.
  decompose [or] H; subst; try easy;
  (split; [intros X; vm_compute in X; decompose [or] X; try discriminate; easy|split; reflexivity]).
Qed.

Lemma parse_increment_name_spec base label ty gz t :
  forallb label_byte label = true -> stringtotime label = Some t -> In ty inc_types ->
  parse_increment_name (increment_name base label (typestr ty gz))
  = Some (gz, label, t, ty, base).
Proof.
  intros Hl Ht Hty. destruct (inc_type_cases ty Hty) as (Hd & Hg & He).
  pose proof (label_no_dot label Hl) as Hld.
  unfold parse_increment_name.
  assert (Hb : bytestotime label = Some t) by (unfold bytestotime; now rewrite label_ascii).
  destruct gz; unfold typestr.
  - assert (E : split_on dot (increment_name base label (ty ++ bs ".gz"))
                = split_on dot base ++ [label; ty; bs "gz"]).
    { unfold increment_name.
      change (join_with [dot] [base; label; ty ++ bs ".gz"])
        with (base ++ dot :: (label ++ dot :: (ty ++ dot :: bs "gz"))).
      apply (split_on_join_tail dot base [label; ty; bs "gz"]); [easy|].
      intros x [<-|[<-|[<-|[]]]]; [easy|easy|].
      intros X; vm_compute in X; decompose [or] X; try discriminate; easy. }
    rewrite E, rev_app_distr. cbn [rev app]. rewrite beq_bytes_refl.
    pose proof (split_on_nonempty dot base) as Hne.
    rewrite app_length. cbn [List.length].
    destruct (Nat.ltb_spec (List.length (split_on dot base) + 3) 4) as [X|_].
    { destruct (split_on dot base); [easy|]. cbn in X. lia. }
    rewrite He, Hb, rev_involutive, join_split. reflexivity.
  - assert (E : split_on dot (increment_name base label ty) = split_on dot base ++ [label; ty]).
    { unfold increment_name.
      change (join_with [dot] [base; label; ty]) with (base ++ dot :: (label ++ dot :: ty)).
      apply (split_on_join_tail dot base [label; ty]); [easy|].
      intros x [<-|[<-|[]]]; easy. }
    rewrite E, rev_app_distr. cbn [rev app]. rewrite Hg.
    pose proof (split_on_nonempty dot base) as Hne.
    rewrite app_length. cbn [List.length].
    destruct (Nat.ltb_spec (List.length (split_on dot base) + 2) 3) as [X|_].
    { destruct (split_on dot base); [easy|]. cbn in X. lia. }
    rewrite He, Hb, rev_involutive, join_split. reflexivity.
Qed.

Lemma increment_name_inj b1 l1 t1 g1 b2 l2 t2 g2 x1 x2 :
  forallb label_byte l1 = true -> stringtotime l1 = Some x1 -> In t1 inc_types ->
  forallb label_byte l2 = true -> stringtotime l2 = Some x2 -> In t2 inc_types ->
  increment_name b1 l1 (typestr t1 g1) = increment_name b2 l2 (typestr t2 g2) ->
  b1 = b2 /\ l1 = l2 /\ t1 = t2 /\ g1 = g2.
Proof.
  intros H1 H2 H3 H4 H5 H6 E.
  pose proof (parse_increment_name_spec b1 l1 t1 g1 x1 H1 H2 H3) as P1.
  pose proof (parse_increment_name_spec b2 l2 t2 g2 x2 H4 H5 H6) as P2.
  rewrite E, P2 in P1. injection P1. intuition congruence.
Qed.

Lemma starts_with_increment base label ts : starts_with base (increment_name base label ts) = true.
Proof. apply starts_with_spec. exists (dot :: label ++ dot :: ts). reflexivity. Qed.

(* exact content of a listing *)
Lemma incfiles_list_in base begin end_ names n t :
  In (n, t) (incfiles_list base begin end_ names) <->
  In n names /\ starts_with base n = true /\
  (exists c ts ty, parse_increment_name n = Some (c, ts, t, ty, base)) /\
  match begin with None => True | Some x => (x <= t)%Z end /\
  match end_ with None => True | Some x => (t <= x)%Z end.
Proof.
  unfold incfiles_list. rewrite in_flat_map. split.
  - intros (m & Hm & H). destruct (starts_with base m) eqn:Es; [|easy].
    destruct (parse_increment_name m) as [[[[[c ts] t'] ty] b]|] eqn:Ep; [|easy].
    destruct (beq_bytes b base && _ && _) eqn:E; [|easy].
    destruct H as [H|[]]. injection H as -> ->.
    rewrite !andb_true_iff in E. destruct E as [[E1 E2] E3]. apply beq_bytes_true in E1. subst b.
    repeat split; eauto.
    + destruct begin; [now apply Z.leb_le|easy].
    + destruct end_; [now apply Z.leb_le|easy].
  - intros (Hn & Hs & (c & ts & ty & Ep) & Hb & He).
    exists n. split; [easy|]. rewrite Hs, Ep, beq_bytes_refl.
    destruct begin as [x|]; [apply Z.leb_le in Hb; rewrite Hb|];
    (destruct end_ as [y|]; [apply Z.leb_le in He; rewrite He|]); now left.
Qed.

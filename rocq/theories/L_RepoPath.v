(* L_RepoPath.v -- proofs about M_RepoPath.v *)
From Coq Require Import List ZArith Bool Ascii Arith Lia.
From Verif Require Import Base L_Base M_Time L_Time M_IncName L_IncName M_Security S_Security P_Security
  M_RepoPath S_RepoPath.
Import List ListNotations.

(** ** times have no slash *)
Lemma parse_Z_noslash s z : parse_Z s = Some z -> ~ In slash s.
Proof.
  assert (N : forall s n, parse_N s = Some n -> ~ In slash s).
  { intros r n H. unfold parse_N in H. destruct r as [|c r]; [discriminate|].
    destruct (forallb is_digit (c :: r)) eqn:E; [|discriminate].
    rewrite forallb_forall in E. intros I. apply E in I. discriminate. }
  unfold parse_Z. destruct s as [|c r]; [discriminate|].
  destruct (Ascii.eqb_spec c (chr 45)) as [->|_].
  - destruct (parse_N r) eqn:E; [|discriminate]. intros _ [I|I]; [discriminate|]. now apply N in E.
  - destruct (Ascii.eqb_spec c (chr 43)) as [->|_].
    + destruct (parse_N r) eqn:E; [|discriminate]. intros _ [I|I]; [discriminate|]. now apply N in E.
    + destruct (parse_N (c :: r)) eqn:E; [|discriminate]. intros _. now apply N in E.
Qed.

Lemma tsplit_in c s : In c s -> is_tsep c = false -> exists f, In f (tsplit s) /\ In c f.
Proof.
  intros H T. induction s as [|d s IH]; [easy|]. cbn [tsplit]. destruct (is_tsep d) eqn:E.
  - destruct H as [->|H]; [congruence|]. destruct (IH H) as (f & F & I). exists f. split; [now right|exact I].
  - destruct (tsplit s) as [|f fs] eqn:S0.
    + destruct H as [->|H].
      * exists [c]. split; now left.
      * destruct (IH H) as (f & [] & _).
    + destruct H as [->|H].
      * exists (c :: f). split; now left.
      * destruct (IH H) as (g & [<-|G] & I).
        -- exists (d :: f). split; [now left|now right].
        -- exists g. split; [now right|exact I].
Qed.

Lemma stringtotime_noslash s t : stringtotime s = Some t -> ~ In slash s.
Proof.
  intros H I. unfold stringtotime in H.
  rewrite <- (firstn_skipn 19 s) in I. apply in_app_or in I. destruct I as [I|I].
  - destruct (tsplit_in slash _ I eq_refl) as (f & F & J).
    assert (X : In None (map parse_Z (tsplit (firstn 19 s)))).
    { apply in_map_iff. exists f. split; [|exact F]. destruct (parse_Z f) eqn:E; [|reflexivity].
      exfalso. exact (parse_Z_noslash _ _ E J). }
    destruct (map parse_Z (tsplit (firstn 19 s))) as [|[y|] [|[mo|] [|[d|] [|[h|] [|[mi|] [|[se|] [|? ?]]]]]]];
      try discriminate.
    cbn [In] in X. decompose [or] X; try discriminate; easy.
  - assert (Z0 : exists z, tzd_to_seconds (skipn 19 s) = Some z).
    { destruct (map parse_Z (tsplit (firstn 19 s))) as [|[y|] [|[mo|] [|[d|] [|[h|] [|[mi|] [|[se|] [|? ?]]]]]]];
        try discriminate.
      destruct (_ && _) in H; [|discriminate]. destruct (tzd_to_seconds (skipn 19 s)) as [z|]; [now exists z|discriminate]. }
    destruct Z0 as [z E]. revert E I. generalize (skipn 19 s). intros r E I. unfold tzd_to_seconds in E.
    destruct (beq_bytes r (bs "Z")) eqn:B.
    + apply beq_bytes_true in B. subst r. destruct I as [I|I]; [discriminate|easy].
    + destruct r as [|s0 [|h1 [|h2 [|c [|m1 [|m2 [|? ?]]]]]]]; try discriminate.
      destruct (_ && _) eqn:A in E; [|discriminate].
      destruct (parse_Z [s0; h1; h2]) eqn:E1; [|discriminate].
      destruct (parse_Z [m1; m2]) eqn:E2; [|discriminate].
      apply parse_Z_noslash in E1. apply parse_Z_noslash in E2.
      cbn [In] in *. apply andb_prop in A as [_ A]. apply orb_prop in A.
      decompose [or] I; try (subst; tauto).
      subst c. destruct A as [A|A]; discriminate.
Qed.

Lemma bytestotime_noslash s t : bytestotime s = Some t -> ~ In slash s.
Proof. unfold bytestotime. destruct (forallb _ s); [apply stringtotime_noslash|discriminate]. Qed.

Lemma inc_types_noslash x : In slash x -> existsb (beq_bytes x) inc_types = false.
Proof.
  intros I. destruct (existsb (beq_bytes x) inc_types) eqn:E; [|reflexivity].
  apply existsb_exists in E as (y & Y & B). apply beq_bytes_true in B. subst y. exfalso.
  unfold inc_types in Y. cbn [In] in Y. decompose [or] Y; subst; try easy;
    (vm_compute in I; decompose [or] I; try discriminate; easy).
Qed.
Lemma gz_noslash x : In slash x -> beq_bytes x (bs "gz") = false.
Proof.
  intros I. destruct (beq_bytes x (bs "gz")) eqn:E; [|reflexivity].
  apply beq_bytes_true in E. subst x. vm_compute in I. decompose [or] I; try discriminate; easy.
Qed.

Lemma join_cons d b (l : list bytes) : l <> [] -> join_with [d] (b :: l) = b ++ d :: join_with [d] l.
Proof. destruct l; [congruence|reflexivity]. Qed.

(** ** the name of an increment within a path *)
Lemma split_dot_path pre f fs : (forall x, In x (f :: fs) -> ~ In M_IncName.dot x) ->
  exists A a, pre = join_with [M_IncName.dot] (A ++ [a]) /\
    split_on M_IncName.dot (pre ++ slash :: join_with [M_IncName.dot] (f :: fs)) = A ++ (a ++ slash :: f) :: fs.
Proof.
  intros H. destruct (exists_last (split_on_nonempty M_IncName.dot pre)) as (A & a & E).
  exists A, a. split; [now rewrite <- E, join_split|].
  assert (E2 : pre ++ slash :: join_with [M_IncName.dot] (f :: fs)
               = join_with [M_IncName.dot] (A ++ (a ++ slash :: f) :: fs)).
  { rewrite <- (join_split M_IncName.dot pre) at 1. rewrite E. clear E H.
    induction A as [|b A IH].
    - cbn [app join_with]. destruct fs; cbn [join_with]; now rewrite <- ?app_assoc.
    - cbn [app]. rewrite (join_cons _ b (A ++ [a])), (join_cons _ b (A ++ _ :: _)) by (now destruct A).
      rewrite <- ?app_assoc. cbn [app]. do 2 f_equal. exact IH. }
  rewrite E2. apply split_join; [now destruct A|].
  intros x Hx. apply in_app_or in Hx. destruct Hx as [Hx|[<-|Hx]].
  - apply (split_on_no_sep_in M_IncName.dot pre). rewrite E. apply in_or_app. now left.
  - intros I. apply in_app_or in I. destruct I as [I|[I|I]]; [|discriminate|].
    + revert I. apply (split_on_no_sep_in M_IncName.dot pre). rewrite E. apply in_or_app. right. now left.
    + revert I. apply H. now left.
  - apply H. now right.
Qed.

Definition in_dir (pre : bytes) (i : bool * bytes * Z * bytes * bytes) :=
  let '(c, ts, t, ty, b) := i in (c, ts, t, ty, pre ++ slash :: b).

Lemma join_in_dir pre A a f R : pre = join_with [M_IncName.dot] (A ++ [a]) ->
  join_with [M_IncName.dot] (A ++ (a ++ slash :: f) :: R) = pre ++ slash :: join_with [M_IncName.dot] (f :: R).
Proof.
  intros ->. induction A as [|b A IH].
  - cbn [app join_with]. destruct R; cbn [join_with]; now rewrite <- ?app_assoc.
  - cbn [app]. rewrite (join_cons _ b (A ++ [a])), (join_cons _ b (A ++ _ :: _)) by (now destruct A).
    rewrite <- ?app_assoc. cbn [app]. do 2 f_equal. exact IH.
Qed.

Lemma parse_in_dir pre nm : ~ In slash nm ->
  parse_increment_name (pre ++ slash :: nm) = option_map (in_dir pre) (parse_increment_name nm).
Proof.
  intros Ns. unfold parse_increment_name.
  pose proof (split_on_no_sep_in M_IncName.dot nm) as Nd.
  pose proof (join_split M_IncName.dot nm) as J.
  assert (S0 : forall x, In x (split_on M_IncName.dot nm) -> ~ In slash x).
  { intros x Hx I. apply Ns. rewrite <- (join_split M_IncName.dot nm).
    clear - Hx I. induction (split_on M_IncName.dot nm) as [|y l IH]; [easy|].
    destruct l as [|z l]; [destruct Hx as [->|[]]; exact I|].
    change (join_with [M_IncName.dot] (y :: z :: l)) with (y ++ [M_IncName.dot] ++ join_with [M_IncName.dot] (z :: l)).
    destruct Hx as [->|Hx]; [apply in_or_app; now left|].
    apply in_or_app. right. right. now apply IH. }
  destruct (split_on M_IncName.dot nm) as [|f fs] eqn:E; [now apply split_on_nonempty in E|]. try rewrite E in J. try rewrite E in Nd.
  destruct (split_dot_path pre f fs) as (A & a & P & Sp); [exact Nd|].
  assert (Sp' : split_on M_IncName.dot (pre ++ slash :: nm) = A ++ (a ++ slash :: f) :: fs) by (rewrite <- J; exact Sp).
  rewrite Sp'. clear Sp'.
  assert (Sl : In slash (a ++ slash :: f)) by (apply in_or_app; right; now left).
  rewrite rev_app_distr. cbn [rev]. rewrite <- app_assoc. rewrite app_length. cbn [List.length].
  assert (FS : fs = rev (rev fs)) by now rewrite rev_involutive.
  assert (L : List.length fs = List.length (rev fs)) by now rewrite rev_length.
  rewrite L. destruct (rev fs) as [|x [|y rest]] eqn:R; cbn [app List.length option_map].
  - rewrite (gz_noslash _ Sl). destruct (beq_bytes f (bs "gz")).
    + destruct (_ <? 3)%nat; [reflexivity|]. destruct (rev A); [reflexivity|]. now rewrite inc_types_noslash.
    + destruct (_ <? 3)%nat; [reflexivity|]. destruct (rev A); [reflexivity|]. now rewrite inc_types_noslash.
  - assert (B : forall z, bytestotime (a ++ slash :: f) = Some z -> False)
      by (intros z H; now apply bytestotime_noslash in H).
    destruct (beq_bytes x (bs "gz")).
    + destruct (_ <? 4)%nat; [reflexivity|]. destruct (rev A); [reflexivity|]. now rewrite inc_types_noslash.
    + destruct (_ <? 3)%nat; [reflexivity|].
      destruct (existsb (beq_bytes x) inc_types); [|reflexivity].
      destruct (bytestotime (a ++ slash :: f)) eqn:Bt; [exfalso; exact (B _ eq_refl)|reflexivity].
  - destruct (beq_bytes x (bs "gz")).
    + destruct rest as [|z rest]; cbn [app List.length].
      * destruct (_ <? 4)%nat; cbn [option_map]; [reflexivity|].
        destruct (existsb (beq_bytes y) inc_types); [|reflexivity].
        destruct (bytestotime (a ++ slash :: f)) eqn:Bt; [now apply bytestotime_noslash in Bt|reflexivity].
      * rewrite !(proj2 (Nat.ltb_ge _ 4)) by lia. cbn [option_map].
        destruct (existsb (beq_bytes y) inc_types); [|reflexivity].
        destruct (bytestotime z); [|reflexivity]. cbn [option_map in_dir].
        rewrite !rev_app_distr. cbn [rev app]. rewrite rev_involutive.
        rewrite <- app_assoc. cbn [app]. now rewrite (join_in_dir pre).
    + rewrite !(proj2 (Nat.ltb_ge _ 3)) by lia. cbn [option_map].
      destruct (existsb (beq_bytes x) inc_types); [|reflexivity].
      destruct (bytestotime y); [|reflexivity]. cbn [option_map in_dir].
      rewrite !rev_app_distr. cbn [rev app]. rewrite rev_involutive.
      rewrite <- app_assoc. cbn [app]. now rewrite (join_in_dir pre).
Qed.

(** ** normalised paths: how they start, and their names *)
Inductive start : Type := SRel | SAbs | SShare.
Definition pref (r : start) : list bytes := match r with SRel => [] | SAbs => [[]] | SShare => [[]; []] end.
Definition alnum_first (cs : list bytes) : Prop :=
  match cs with (c :: _) :: _ => is_alnum c = true | _ => False end.
Definition ok (r : start) (cs : list bytes) : Prop :=
  cs <> [] /\ (forall x, In x cs -> real_comp x = true /\ ~ In slash x) /\ (r = SShare -> alnum_first cs).
Definition pth (r : start) (cs : list bytes) : bytes := join_with [slash] (pref r ++ cs).

Lemma ok_ne r cs x : ok r cs -> In x cs -> x <> [] /\ ~ In slash x.
Proof. intros (_ & H & _) I. destruct (H x I) as [E N]. split; [|exact N]. intros ->. discriminate. Qed.

Lemma split_pth r cs : ok r cs -> split_on slash (pth r cs) = pref r ++ cs.
Proof.
  intros O. apply split_join.
  - destruct O as (N & _). destruct r; destruct cs; easy.
  - intros x I. apply in_app_or in I. destruct I as [I|I].
    + destruct r; cbn in I; decompose [or] I; subst; easy.
    + now apply (ok_ne _ _ _ O).
Qed.

Lemma comps_pth r cs : ok r cs -> comps (pth r cs) = cs.
Proof.
  intros O. unfold comps. rewrite split_pth by exact O.
  assert (E : filter real_comp (pref r) = []) by (destruct r; reflexivity).
  rewrite filter_app, E. cbn [app]. destruct O as (_ & H & _).
  induction cs as [|x cs IH]; [reflexivity|]. cbn [filter]. rewrite (proj1 (H x (or_introl eq_refl))).
  rewrite IH; [reflexivity|]. intros y Y. apply H. now right.
Qed.

Lemma first_noslash r cs : ok r cs -> exists c x l, cs = (c :: x) :: l /\ Ascii.eqb c slash = false.
Proof.
  intros O. pose proof O as (N & _). destruct cs as [|[|c x] l]; [congruence| |].
  - exfalso. exact (proj1 (ok_ne _ _ [] O (or_introl eq_refl)) eq_refl).
  - exists c, x, l. split; [reflexivity|]. apply Ascii.eqb_neq. intros ->.
    apply (proj2 (ok_ne _ _ _ O (or_introl eq_refl))). now left.
Qed.

Lemma pth_eq r cs : cs <> [] ->
  pth r cs = match r with SRel => [] | SAbs => [slash] | SShare => [slash; slash] end ++ join_with [slash] cs.
Proof. intros N. destruct cs as [|b l]; [congruence|]. destruct r; reflexivity. Qed.

Lemma starts_pth r cs : ok r cs -> starts_slash (pth r cs) = match r with SRel => false | _ => true end.
Proof.
  intros O. destruct (first_noslash _ _ O) as (c & x & l & -> & E).
  rewrite pth_eq by discriminate. destruct r; cbn [app starts_slash]; try reflexivity.
  destruct l; exact E.
Qed.

Lemma normalize_pth r cs : ok r cs -> normalize (pth r cs) = pth r cs.
Proof.
  intros O. unfold normalize. fold (comps (pth r cs)). rewrite comps_pth by exact O.
  rewrite os_join_nil by (intros x I; now apply (ok_ne r cs)).
  rewrite starts_pth by exact O. pose proof O as (N & _ & A).
  destruct (first_noslash _ _ O) as (c & x & l & -> & E). rewrite pth_eq by discriminate.
  destruct r; cbn [app].
  - destruct l; reflexivity.
  - assert (W : windows_share (slash :: join_with [slash] ((c :: x) :: l)) = false).
    { unfold windows_share. destruct l; cbn [join_with app]; rewrite E; destruct x; reflexivity. }
    now rewrite W.
  - specialize (A eq_refl). cbn in A. unfold windows_share.
    assert (F : exists u, join_with [slash] ((c :: x) :: l) = c :: u).
    { destruct l; cbn [join_with app]; eexists; reflexivity. }
    destruct F as [u ->]. now rewrite A.
Qed.

Lemma has_slash r cs : ok r cs -> (r = SRel -> exists a b l, cs = a :: b :: l) -> mem_byte slash (pth r cs) = true.
Proof.
  intros O H. rewrite pth_eq by apply O. apply mem_byte_In. apply in_or_app.
  destruct r; [|left; now left|left; now left]. right.
  destruct (H eq_refl) as (a & b & l & ->). rewrite join_cons by discriminate. apply in_or_app. right. now left.
Qed.

Lemma dirname_rel1 x : ok SRel [x] -> dirname (pth SRel [x]) = M_Security.dot.
Proof.
  intros O. unfold dirname. rewrite normalize_pth by exact O.
  destruct (mem_byte slash (pth SRel [x])) eqn:M; [|reflexivity].
  apply mem_byte_In in M. exfalso. cbn in M. now apply (ok_ne _ _ _ O (or_introl eq_refl)).
Qed.

Lemma ok_removelast r cs x : ok r (cs ++ [x]) -> cs <> [] -> ok r cs.
Proof.
  intros (_ & H & A) N. split; [exact N|]. split.
  - intros y I. apply H. apply in_or_app. now left.
  - intros E. specialize (A E). destruct cs; [congruence|exact A].
Qed.

Lemma parent_pth r cs x : ok r (cs ++ [x]) -> cs <> [] -> get_parent (pth r (cs ++ [x])) = pth r cs.
Proof.
  intros O N. unfold get_parent, dirname. rewrite normalize_pth by exact O.
  rewrite has_slash; [|exact O|].
  - rewrite split_pth by exact O. rewrite app_assoc, removelast_last. fold (pth r cs).
    pose proof (ok_removelast _ _ _ O N) as O2. destruct (first_noslash _ _ O2) as (c & y & l & E & F).
    rewrite pth_eq by exact N. subst cs. destruct r; try reflexivity. cbn [app]. destruct l; reflexivity.
  - intros _. destruct cs as [|a [|b l]]; [congruence|exists a, x, []; reflexivity|exists a, b, (l ++ [x]); reflexivity].
Qed.

Lemma parent_top r x : ok r [x] -> r <> SRel -> get_parent (pth r [x]) = [slash].
Proof.
  intros O N. unfold get_parent, dirname. rewrite normalize_pth by exact O.
  rewrite has_slash by (exact O || congruence). rewrite split_pth by exact O. rewrite removelast_last.
  destruct r; [congruence| |]; reflexivity.
Qed.

(** every normalised path is the top or one of these *)
Lemma normalize_cases q :
  (comps q = [] /\ normalize q = (if starts_slash q then [slash] else M_Security.dot)) \/
  (comps q <> [] /\ exists r, ok r (comps q) /\ normalize q = pth r (comps q) /\
     (starts_slash q = match r with SRel => false | _ => true end)).
Proof.
  destruct (comps q) as [|c0 cl] eqn:E.
  - left. split; [reflexivity|]. unfold normalize. fold (comps q). rewrite E. cbn [os_join].
    destruct (starts_slash q) eqn:S1; [|reflexivity].
    destruct (windows_share q) eqn:W; [|reflexivity]. exfalso.
    destruct q as [|a [|b [|d q]]]; cbn in W; try discriminate.
    apply andb_prop in W as [W1 W2]. apply Ascii.eqb_eq in W1. subst b. apply Ascii.eqb_eq in S1. subst a.
      unfold comps in E. cbn [split_on] in E.
      destruct (Ascii.eqb_spec slash slash) as [_|]; [|congruence]. 
      destruct (Ascii.eqb_spec d slash) as [->|Nd]; [discriminate|].
      destruct (split_on slash q) as [|f fs] eqn:Q; [now apply split_on_nonempty in Q|].
      cbn [filter real_comp] in E.
      destruct (beq_bytes (d :: f) M_Security.dot) eqn:B.
      * apply beq_bytes_true in B. injection B as -> ->. vm_compute in W2. discriminate.
      * cbn in E. discriminate.
  - right. split; [discriminate|]. rewrite <- E.
    assert (C : forall x, In x (comps q) -> real_comp x = true /\ ~ In slash x).
    { intros x I. split; [|now apply comps_ok in I]. unfold comps in I. now apply filter_In in I. }
    unfold normalize. fold (comps q). rewrite os_join_nil by apply comps_ok.
    destruct (starts_slash q) eqn:S1; [destruct (windows_share q) eqn:W|].
    + exists SShare. split; [|split; [rewrite pth_eq by congruence; reflexivity|reflexivity]].
      split; [congruence|]. split; [exact C|]. intros _.
      destruct q as [|a [|b [|d q]]]; cbn in W; try discriminate.
      apply andb_prop in W as [W1 W2]. apply Ascii.eqb_eq in W1. subst b. apply Ascii.eqb_eq in S1. subst a.
      unfold comps. cbn [split_on].
      destruct (Ascii.eqb_spec slash slash) as [_|]; [|congruence]. 
      destruct (Ascii.eqb_spec d slash) as [->|Nd]; [discriminate|].
      destruct (split_on slash q) as [|f fs] eqn:Q; [now apply split_on_nonempty in Q|].
      cbn [filter real_comp].
      destruct (beq_bytes (d :: f) M_Security.dot) eqn:B.
      * apply beq_bytes_true in B. injection B as -> ->. vm_compute in W2. discriminate.
      * cbn. exact W2.
    + exists SAbs. split; [|split; [rewrite pth_eq by congruence; reflexivity|reflexivity]].
      split; [congruence|]. split; [exact C|discriminate].
    + exists SRel. split; [|split; [|reflexivity]].
      * split; [congruence|]. split; [exact C|discriminate].
      * rewrite pth_eq by congruence. cbn [app].
        destruct (join_with [slash] (comps q)) eqn:J; [|reflexivity].
        exfalso. rewrite E in J. destruct (C c0) as [R0 _]; [rewrite E; now left|].
        destruct c0; [discriminate|]. destruct cl; discriminate.
Qed.

(** ** the search among the parents *)
Definition root (r : start) (cwd : list bytes) : list bytes := match r with SRel => cwd | _ => [] end.

Lemma place_pth cwd r cs : ok r cs -> ~ In M_Security.dotdot cs -> place cwd (pth r cs) = root r cwd ++ cs.
Proof.
  intros O D. rewrite place_eq, starts_pth by exact O.
  rewrite walk_nodots.
  - fold (comps (pth r cs)). rewrite comps_pth by exact O. destruct r; reflexivity.
  - rewrite split_pth by exact O. intros I. apply in_app_or in I. destruct I as [I|I]; [|contradiction].
    destruct r; cbn in I; decompose [or] I; try discriminate; easy.
Qed.

Definition repob (tree : list bytes -> option (list bytes)) (d : list bytes) : bool :=
  match tree d with Some l => existsb (beq_bytes data_name) l | None => false end.
Lemma repob_spec tree d : repob tree d = true <-> repository_at tree d.
Proof.
  unfold repob, repository_at. destruct (tree d) as [l|].
  - rewrite existsb_exists. split.
    + intros (x & I & B). apply beq_bytes_true in B. subst x. now exists l.
    + intros (m & E & I). injection E as <-. exists data_name. split; [exact I|]. now apply beq_bytes_true.
  - split; [discriminate|]. intros (m & E & _). discriminate.
Qed.
Lemma has_repob cwd tree ls p : sees cwd tree ls -> has_data ls p = repob tree (place cwd p).
Proof. intros E. unfold has_data, repob. now rewrite E. Qed.

Definition steps (r : start) (cs : list bytes) : nat :=
  match r with SRel => List.length cs - 1 | SAbs => List.length cs | SShare => List.length cs + 1 end.

Lemma skipn_last {A} (a b : list A) n : n = List.length b -> skipn (List.length (a ++ b) - n) (a ++ b) = b.
Proof.
  intros ->. rewrite app_length. replace (List.length a + List.length b - List.length b)%nat with (List.length a) by lia.
  rewrite skipn_app, skipn_all, Nat.sub_diag. reflexivity.
Qed.

Definition good_search cwd tree r cs (done : list bytes) (f : found) : Prop :=
  (exists b c1 c2, f = FSub b (c2 ++ done) /\ cs = c1 ++ c2 /\ c2 <> [] /\ (r = SRel -> c1 <> []) /\
     place cwd b = root r cwd ++ c1 /\ repob tree (root r cwd ++ c1) = true /\
     (forall a a', c2 = a ++ a' -> a <> [] -> a' <> [] -> repob tree (root r cwd ++ c1 ++ a) = false)) \/
  (f = FNone /\ forall a a', cs = a ++ a' -> (r = SRel -> a <> []) -> a' <> [] -> repob tree (root r cwd ++ a) = false).

Lemma place_top cwd : place cwd [slash] = [].
Proof. reflexivity. Qed.

Lemma search_good cwd tree ls r : sees cwd tree ls -> forall cs done,
  ok r cs -> ~ In M_Security.dotdot cs ->
  good_search cwd tree r cs done
    (search ls (steps r cs) (S (List.length done)) (pth r cs) (pref r ++ cs ++ done)).
Proof.
  intros E cs. induction cs as [|x cs IH] using rev_ind; intros done O D; [now destruct O|].
  destruct cs as [|c0 cs0] eqn:C.
  - cbn [app] in *. clear IH. destruct r; cbn [steps List.length search Nat.sub Nat.add].
    + right. split; [reflexivity|]. intros a a' A N1 N2. destruct a as [|u a]; [now specialize (N1 eq_refl)|].
      destruct a; destruct a'; discriminate || congruence.
    + rewrite parent_top by (exact O || discriminate). rewrite (has_repob cwd tree) by exact E. rewrite place_top.
      destruct (repob tree []) eqn:R.
      * left. exists [slash], [], [x]. repeat split; try easy.
        -- f_equal. apply (skipn_last (pref SAbs) (x :: done)). reflexivity.
        -- intros a a' A N1 N2. destruct a as [|u [|? ?]]; [congruence|destruct a'; [congruence|discriminate]|discriminate].
      * right. split; [reflexivity|]. intros a a' A _ N. destruct a as [|u [|? ?]]; [exact R|destruct a'; [congruence|discriminate]|discriminate].
    + rewrite parent_top by (exact O || discriminate). rewrite (has_repob cwd tree) by exact E. rewrite place_top.
      destruct (repob tree []) eqn:R.
      * left. exists [slash], [], [x]. repeat split; try easy.
        -- f_equal. apply (skipn_last (pref SShare) (x :: done)). reflexivity.
        -- intros a a' A N1 N2. destruct a as [|u [|? ?]]; [congruence|destruct a'; [congruence|discriminate]|discriminate].
      * change (get_parent [slash]) with [slash]. rewrite (has_repob cwd tree) by exact E. rewrite place_top, R.
        right. split; [reflexivity|]. intros a a' A _ N. destruct a as [|u [|? ?]]; [exact R|destruct a'; [congruence|discriminate]|discriminate].
  - rewrite <- C in *. assert (N : cs <> []) by (rewrite C; discriminate). clear C c0 cs0.
    pose proof (ok_removelast _ _ _ O N) as O2.
    assert (D2 : ~ In M_Security.dotdot cs) by (intros I; apply D; apply in_or_app; now left).
    assert (ST : steps r (cs ++ [x]) = S (steps r cs)).
    { destruct r; cbn [steps]; rewrite app_length; cbn [List.length]; destruct cs; try congruence; cbn [List.length]; lia. }
    rewrite ST. cbn [search]. rewrite parent_pth by assumption. rewrite (has_repob cwd tree) by exact E.
    rewrite place_pth by assumption.
    destruct (repob tree (root r cwd ++ cs)) eqn:R.
    + left. exists (pth r cs), cs, [x]. repeat split; try easy.
      * f_equal. rewrite <- app_assoc. cbn [app]. rewrite app_assoc. apply (skipn_last (pref r ++ cs) (x :: done)). reflexivity.
      * now apply place_pth.
      * intros a a' A N1 N2. destruct a as [|u [|? ?]]; [congruence|destruct a'; [congruence|discriminate]|discriminate].
    + rewrite <- app_assoc. cbn [app]. destruct (IH (x :: done) O2 D2) as [(b & c1 & c2 & F & Cc & N2 & Nr & P & Rp & H)|[F H]].
      * left. exists b, c1, (c2 ++ [x]). cbn [List.length] in F. rewrite F. repeat split; try assumption.
        -- f_equal. rewrite <- app_assoc. reflexivity.
        -- rewrite Cc, app_assoc. reflexivity.
        -- now destruct c2.
        -- intros a a' A N3 N4. destruct a' as [|y a'] using rev_ind; [congruence|]. clear IHa'.
           rewrite app_assoc in A. apply app_inj_tail in A as [A _].
           destruct a' as [|z a'].
           ++ rewrite app_nil_r in A. subst a. rewrite <- Cc. exact R.
           ++ apply (H a (z :: a')); [exact A|exact N3|discriminate].
      * right. cbn [List.length] in F. split; [exact F|]. intros a a' A Nr N4.
        destruct a' as [|y a'] using rev_ind; [congruence|]. clear IHa'.
        rewrite app_assoc in A. apply app_inj_tail in A as [A _].
        destruct a' as [|z a'].
        -- rewrite app_nil_r in A. subst a. exact R.
        -- apply (H a (z :: a')); [exact A|exact Nr|discriminate].
Qed.

Lemma search_sub ls n : forall e p pl f, search ls n e p pl = f -> f = FNone \/ exists b i, f = FSub b i.
Proof.
  induction n as [|n IH]; intros e p pl f H; cbn [search] in H; [now left|].
  destruct (has_data ls (get_parent p)); [right; eauto|eapply IH; eauto].
Qed.
Lemma search_not_base ls n e p pl b : search ls n e p pl = FBase b -> False.
Proof. intros H. apply search_sub in H as [H|(? & ? & H)]; discriminate. Qed.
Lemma search_not_inc ls n e p pl b i t : search ls n e p pl = FInc b i t -> False.
Proof. intros H. apply search_sub in H as [H|(? & ? & H)]; discriminate. Qed.

(** ** increments *)
Lemma index_of_app x a b : ~ In x a -> index_of x (a ++ x :: b) = Some (List.length a).
Proof.
  induction a as [|y a IH]; intros N; cbn [app index_of List.length].
  - now rewrite (proj2 (beq_bytes_true x x) eq_refl).
  - destruct (beq_bytes y x) eqn:B; [apply beq_bytes_true in B; subst y; exfalso; apply N; now left|].
    rewrite IH; [reflexivity|]. intros I. apply N. now right.
Qed.
Lemma index_of_some x l n : index_of x l = Some n ->
  exists a b, l = a ++ x :: b /\ ~ In x a /\ List.length a = n.
Proof.
  revert n. induction l as [|y l IH]; intros n H; cbn [index_of] in H; [discriminate|].
  destruct (beq_bytes y x) eqn:B.
  - apply beq_bytes_true in B. subst y. injection H as <-. now exists [], l.
  - destruct (index_of x l) as [m|] eqn:M; [|discriminate]. injection H as <-.
    destruct (IH m eq_refl) as (a & b & -> & N & L). exists (y :: a), b. cbn. rewrite L. repeat split.
    intros [->|I]; [|contradiction]. now rewrite (proj2 (beq_bytes_true x x) eq_refl) in B.
Qed.
Lemma index_of_none x l : ~ In x l -> index_of x l = None.
Proof.
  intros N. destruct (index_of x l) eqn:E; [|reflexivity]. apply index_of_some in E as (a & b & -> & _).
  exfalso. apply N. apply in_or_app. right. now left.
Qed.

Lemma join_snoc (l : list bytes) x : l <> [] -> join_with [slash] (l ++ [x]) = join_with [slash] l ++ slash :: x.
Proof. intros N. rewrite (L_IncName.join_app [slash] l [x]) by (easy). reflexivity. Qed.

Lemma inc_file_eq name label ty gz : inc_file name label ty gz = increment_name name label (typestr ty gz).
Proof.
  unfold inc_file, increment_name, typestr. cbn [join_with]. destruct gz; rewrite ?app_nil_r; reflexivity.
Qed.

Lemma inc_file_noslash name compat off t ty gz : ~ In slash name -> In ty inc_types ->
  ~ In slash (inc_file name (timetostring compat off t) ty gz).
Proof.
  intros N T I. unfold inc_file in I. apply in_app_or in I. destruct I as [I|I]; [contradiction|].
  apply in_app_or in I. destruct I as [I|I]; [cbn in I; decompose [or] I; try discriminate; easy|].
  apply in_app_or in I. destruct I as [I|I].
  - pose proof (timetostring_bytes compat off t) as B. rewrite forallb_forall in B. apply B in I. discriminate.
  - apply in_app_or in I. destruct I as [I|I]; [cbn in I; decompose [or] I; try discriminate; easy|].
    apply in_app_or in I. destruct I as [I|I].
    + pose proof (inc_types_noslash ty I) as X. pose proof (proj2 (proj2 (inc_type_cases ty T))) as Y. congruence.
    + destruct gz; cbn in I; decompose [or] I; try discriminate; easy.
Qed.

Lemma split_on_join_tail_last p b : ~ In slash b -> last (split_on slash (p ++ slash :: b)) [] = b.
Proof.
  intros N. change (slash :: b) with (slash :: join_with [slash] [b]).
  rewrite split_on_join_tail; [apply last_last|discriminate|].
  intros x [<-|[]]. exact N.
Qed.

(** the result for a path ending in the name of an increment *)
Lemma repo_dirs_inc ls parts nm c ts t ty base :
  parts <> [] -> (forall x, In x (parts ++ [nm]) -> ~ In slash x) -> 
  parse_increment_name nm = Some (c, ts, t, ty, base) -> ~ In slash base ->
  repo_dirs ls (join_with [slash] (parts ++ [nm])) =
  match index_of data_name (parts ++ [nm]) with
  | None => FNone
  | Some data_idx =>
      match index_of incs_name (parts ++ [nm]) with
      | Some inc_idx => if (inc_idx =? data_idx + 1)%nat
          then FInc (join_with [slash] (firstn data_idx (parts ++ [nm])))
                 (removelast (skipn (inc_idx + 1) (parts ++ [nm])) ++ [base]) t else FNone
      | None => if starts_with (bs "increments.") nm then
                  if (List.length parts =? data_idx + 1)%nat
                  then FInc (join_with [slash] (firstn data_idx (parts ++ [nm]))) [] t else FNone
                else FNone
      end
  end.
Proof.
  intros N NS P NB. unfold repo_dirs.
  rewrite split_join by (exact NS || now destruct parts).
  rewrite join_snoc by exact N. rewrite parse_in_dir by (apply NS; apply in_or_app; right; now left).
  rewrite P. cbn [option_map in_dir].
  destruct (index_of data_name (parts ++ [nm])) as [di|]; [|reflexivity].
  unfold inc_place. destruct (index_of incs_name (parts ++ [nm])) as [ii|].
  - rewrite split_on_join_tail_last by exact NB. reflexivity.
  - rewrite last_last. destruct (starts_with _ nm); [|reflexivity].
    rewrite app_length. cbn [List.length]. rewrite Nat.add_sub. reflexivity.
Qed.

Lemma app_inj {A} (a b c d : list A) : a ++ b = c ++ d -> List.length a = List.length c -> a = c /\ b = d.
Proof.
  revert c. induction a as [|x a IH]; intros [|y c] H L; try discriminate; [now split|].
  injection H as -> H. injection L as L. destruct (IH c H L) as [-> ->]. now split.
Qed.

(** the base name is made of bytes of the name *)
Lemma join_in_dot (l : list bytes) x : In x (join_with [M_IncName.dot] l) -> x = M_IncName.dot \/ exists b, In b l /\ In x b.
Proof.
  induction l as [|y l IH]; [easy|]. intros I. destruct l as [|z l].
  - right. exists y. split; [now left|exact I].
  - change (join_with [M_IncName.dot] (y :: z :: l)) with (y ++ M_IncName.dot :: join_with [M_IncName.dot] (z :: l)) in I.
    apply in_app_or in I. destruct I as [I|[<-|I]].
    + right. exists y. split; [now left|exact I].
    + now left.
    + destruct (IH I) as [->|(b & B & X)]; [now left|]. right. exists b. split; [now right|exact X].
Qed.
Lemma split_in_dot s b x : In b (split_on M_IncName.dot s) -> In x b -> In x s.
Proof.
  intros B X. rewrite <- (join_split M_IncName.dot s). clear - B X.
  induction (split_on M_IncName.dot s) as [|y l IH]; [easy|]. destruct l as [|z l].
  - destruct B as [->|[]]. exact X.
  - change (join_with [M_IncName.dot] (y :: z :: l)) with (y ++ M_IncName.dot :: join_with [M_IncName.dot] (z :: l)).
    apply in_or_app. destruct B as [->|B]; [now left|]. right. right. now apply IH.
Qed.
Lemma parse_name_in nm c ts t ty b : parse_increment_name nm = Some (c, ts, t, ty, b) -> In slash b -> In slash nm.
Proof.
  intros P I. unfold parse_increment_name in P.
  assert (K : forall R X, rev (split_on M_IncName.dot nm) = X ++ R -> In slash (join_with [M_IncName.dot] (rev R)) -> In slash nm).
  { intros R X E J. apply join_in_dot in J. destruct J as [J|(d & D & J)]; [discriminate|].
    apply (split_in_dot nm d); [|exact J]. apply in_rev. rewrite E. apply in_or_app. right. now apply in_rev. }
  destruct (rev (split_on M_IncName.dot nm)) as [|g r] eqn:E; [discriminate|].
  destruct (beq_bytes g (bs "gz")).
  - destruct (_ <? 4)%nat; [discriminate|]. destruct r as [|e [|s0 R]]; try discriminate.
    destruct (existsb _ _); [|discriminate]. destruct (bytestotime s0); [|discriminate]. injection P as <- <- <- <- <-.
    now apply (K R [g; e; s0]).
  - destruct (_ <? 3)%nat; [discriminate|]. destruct r as [|s0 R]; try discriminate.
    destruct (existsb _ _); [|discriminate]. destruct (bytestotime s0); [|discriminate]. injection P as <- <- <- <- <-.
    now apply (K R [g; s0]).
Qed.

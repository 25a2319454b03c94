(** * C36: session statistics add up *)
From Coq Require Import List ZArith Bool Ascii Lia.
From Verif Require Import Base L_Base M_Iter L_Iter P_Iter M_CCPP S_CCPP P_CCPP M_Stats S_Stats.
Import List ListNotations.
Local Open Scope Z_scope.

(** ** counters *)
Definition incs (e : sevent) : list (bytes * Z) :=
  match e with
  | FromCache (StatSource r) => [(bs "SourceFiles", 1); (bs "SourceFileSize", reg_size r)]
  | FromCache (StatDest r) => [(bs "MirrorFiles", 1); (bs "MirrorFileSize", reg_size r)]
  | FromCache (StatChanged s d) =>
      if there s && there d
      then [(bs "ChangedFiles", 1); (bs "ChangedSourceSize", bytes_of s); (bs "ChangedMirrorSize", bytes_of d)]
      else if there s then [(bs "NewFiles", 1); (bs "NewFileSize", bytes_of s)]
      else if there d then [(bs "DeletedFiles", 1); (bs "DeletedFileSize", bytes_of d)]
      else []
  | FromCache _ => []
  | Increment r => [(bs "IncrementFiles", 1); (bs "IncrementFileSize", reg_size r)]
  | Error => [(bs "Errors", 1)]
  end.
Definition fold_incr (l : list (bytes * Z)) (o : attrs) : attrs := fold_left (fun o x => incr (fst x) (snd x) o) l o.
Lemma sstep_incs o e : sstep o e = fold_incr (incs e) o.
Proof.
  destruct e as [e|r|]; try reflexivity. destruct e as [r|r|s d|r|e]; try reflexivity.
  cbn [sstep incs]. unfold add_changed.
  destruct s as [s|], d as [d|]; cbn [there]; try destruct (q_there s); try destruct (q_there d); reflexivity.
Qed.
Definition amt (a : bytes) (l : list (bytes * Z)) : Z := sum_over (fun x => if beq_bytes (fst x) a then snd x else 0) l.
Lemma incr_spec o a b n z : o a = Some (Whole z) -> incr b n o a = Some (Whole (z + if beq_bytes b a then n else 0)).
Proof.
  intros H. unfold incr. destruct (beq_bytes b a) eqn:E.
  - apply beq_bytes_true in E. subst b. rewrite H. unfold upd. now rewrite beq_bytes_refl.
  - rewrite Z.add_0_r. destruct (o b) as [[]|]; unfold upd; rewrite ?E; auto.
Qed.
Lemma fold_incr_spec l : forall o a z, o a = Some (Whole z) -> fold_incr l o a = Some (Whole (z + amt a l)).
Proof.
  induction l as [|[b n] l IH]; intros o a z H; unfold fold_incr in *; cbn [fold_left fst snd].
  - unfold amt. cbn. now rewrite Z.add_0_r.
  - rewrite (IH _ _ _ (incr_spec o a b n z H)). unfold amt. cbn [sum_over fold_right fst snd].
    do 2 f_equal. unfold sum_over. lia.
Qed.
Lemma session_spec l : forall o a z, o a = Some (Whole z) ->
  fold_left sstep l o a = Some (Whole (z + sum_over (fun e => amt a (incs e)) l)).
Proof.
  induction l as [|e l IH]; intros o a z H; cbn [fold_left].
  - cbn. now rewrite Z.add_0_r.
  - rewrite sstep_incs. rewrite (IH _ _ _ (fold_incr_spec _ _ _ _ H)). do 2 f_equal.
    cbn [sum_over fold_right]. unfold sum_over. lia.
Qed.
Definition counters : list bytes := file_attrs ++ [bs "Errors"].
Lemma tracker_zero start a : In a counters -> tracker start a = Some (Whole 0).
Proof.
  intros H. repeat (destruct H as [<-|H]; [vm_compute; reflexivity|]). destruct H.
Qed.

Lemma sum_app {T} (f : T -> Z) a b : sum_over f (a ++ b) = sum_over f a + sum_over f b.
Proof. induction a; cbn; auto. unfold sum_over in *. lia. Qed.
Lemma sum_flat {T S} (f : S -> Z) (g : T -> list S) l : sum_over f (flat_map g l) = sum_over (fun x => sum_over f (g x)) l.
Proof. induction l; cbn [flat_map]; auto. rewrite sum_app, IHl. reflexivity. Qed.
Lemma sum_map {T S} (f : S -> Z) (g : T -> S) l : sum_over f (map g l) = sum_over (fun x => f (g x)) l.
Proof. induction l; cbn; auto. unfold sum_over in *. lia. Qed.
Lemma sum_ext {T} (f g : T -> Z) l : (forall x, f x = g x) -> sum_over f l = sum_over g l.
Proof. intros H. induction l; cbn; auto. rewrite H. unfold sum_over in *. lia. Qed.
Lemma sum_ext_in {T} (f g : T -> Z) l : (forall x, In x l -> f x = g x) -> sum_over f l = sum_over g l.
Proof. intros H. induction l; cbn; auto. rewrite H by now left. unfold sum_over in *. rewrite IHl; auto. intros; apply H; now right. Qed.
Lemma sum_add {T} (f g : T -> Z) l : sum_over (fun x => f x + g x) l = sum_over f l + sum_over g l.
Proof. induction l; cbn; auto. unfold sum_over in *. lia. Qed.
Lemma sum_opp {T} (f : T -> Z) l : sum_over (fun x => - f x) l = - sum_over f l.
Proof. induction l; cbn; auto. unfold sum_over in *. lia. Qed.

Lemma sum_over_cons {T} (f : T -> Z) x l : sum_over f (x :: l) = f x + sum_over f l.
Proof. reflexivity. Qed.
(** split of the sum by origin *)
Lemma sum_split a l : sum_over (fun e => amt a (incs e)) l =
  sum_over (fun e => amt a (incs (FromCache e))) (cache_events l) +
  sum_over (fun r => amt a (incs (Increment r))) (increments l) +
  errors l * amt a [(bs "Errors", 1)].
Proof.
  induction l as [|[e|r|] l IH]; cbn [cache_events increments errors].
  - reflexivity.
  - rewrite !(sum_over_cons _ _ l), sum_over_cons, IH. lia.
  - rewrite !(sum_over_cons _ _ l), sum_over_cons, IH. lia.
  - rewrite !(sum_over_cons _ _ l), IH. cbn [incs]. lia.
Qed.

(** what one pair contributes *)
Definition contribution (a : bytes) (ops : list op) (p : cpair) : Z :=
  amt a (if counted ops p
         then match fst p with Some r => [(bs "SourceFiles", 1); (bs "SourceFileSize", bytes_of (Some r))] | None => [] end ++
              match snd p with Some r => [(bs "MirrorFiles", 1); (bs "MirrorFileSize", bytes_of (Some r))] | None => [] end
         else []) +
  amt a (if is_changed ops p then [(bs "ChangedFiles", 1); (bs "ChangedSourceSize", bytes_of (fst p)); (bs "ChangedMirrorSize", bytes_of (snd p))]
         else if is_new ops p then [(bs "NewFiles", 1); (bs "NewFileSize", bytes_of (fst p))]
         else if is_deleted ops p then [(bs "DeletedFiles", 1); (bs "DeletedFileSize", bytes_of (snd p))] else []).

Lemma amt_app a x y : amt a (x ++ y) = amt a x + amt a y.
Proof. apply sum_app. Qed.

Lemma amt_nil a : amt a [] = 0.
Proof. reflexivity. Qed.
Lemma sum_cons {T} (f : T -> Z) x l : sum_over f (x :: l) = f x + sum_over f l.
Proof. reflexivity. Qed.
Lemma sum_nil {T} (f : T -> Z) : sum_over f [] = 0.
Proof. reflexivity. Qed.

Lemma pair_contribution a fstat ops p :
  sum_over (fun e => amt a (incs (FromCache e))) (post_process fstat (ent ops p)) = contribution a ops p.
Proof.
  destruct (ent_spec ops p) as (ES & ED & ER & EC).
  assert (B : bytes_of (with_hash ops p) = bytes_of (fst p)).
  { unfold with_hash. destruct (fst p); auto. now destruct (hash_of _ _ _). }
  assert (TH : there (with_hash ops p) = exists_there (fst p)).
  { unfold with_hash. destruct (fst p); auto. now destruct (hash_of _ _ _). }
  assert (WN : with_hash ops p = None <-> fst p = None).
  { unfold with_hash. destruct (fst p); [|tauto]. destruct (hash_of _ _ _); split; discriminate. }
  unfold post_process. cbv zeta. rewrite !sum_app. unfold contribution.
  assert (W : sum_over (fun e => amt a (incs (FromCache e)))
     match (match e_success (ent ops p) with O => e_dst (ent ops p) | S O => e_src (ent ops p) | _ => None end) with
     | Some r => if q_there r then [Write r] else [] | None => [] end = 0).
  { destruct (match e_success (ent ops p) with O => _ | _ => _ end) as [r|]; auto. destruct (q_there r); reflexivity. }
  assert (F : sum_over (fun e => amt a (incs (FromCache e))) (if fstat then [FileStat (ent ops p)] else []) = 0).
  { destruct fstat; reflexivity. }
  rewrite W, F, !Z.add_0_r. f_equal.
  - unfold counted, done. rewrite ES, EC, ED, ER.
    assert (Q : negb (Nat.eqb (P_CCPP.num (outcome_of (pidx p) ops Untouched)) 0) =
                match outcome_of (pidx p) ops Untouched with Untouched => false | _ => true end)
      by (now destruct (outcome_of _ _ _)).
    rewrite Q. destruct (negb _ || _); [|reflexivity]. rewrite sum_app, amt_app. f_equal.
    + destruct (with_hash ops p) as [r|] eqn:E.
      * destruct (fst p) as [r'|]; [|destruct WN as [_ WN]; discriminate WN; auto].
        rewrite sum_cons, sum_nil, Z.add_0_r. cbn [incs]. rewrite <- B. reflexivity.
      * destruct WN as [WN _]. rewrite WN by auto. reflexivity.
    + destruct (snd p); [|reflexivity]. rewrite sum_cons, sum_nil, Z.add_0_r. reflexivity.
  - unfold is_changed, is_new, is_deleted, done. rewrite ES, ED, ER.
    destruct (outcome_of _ _ _); cbn [P_CCPP.num Nat.eqb orb]; [reflexivity| |].
    + rewrite sum_cons, sum_nil, Z.add_0_r. cbn [incs]. rewrite TH, B. change (there (snd p)) with (exists_there (snd p)).
      destruct (exists_there (fst p)), (exists_there (snd p)); reflexivity.
    + rewrite sum_cons, sum_nil, Z.add_0_r. cbn [incs]. rewrite TH, B. change (there (snd p)) with (exists_there (snd p)).
      destruct (exists_there (fst p)), (exists_there (snd p)); reflexivity.
Qed.

Lemma counter_value fstat size ops events start l a :
  NoDup (map pidx (pulled ops)) -> same_index (pulled ops) ->
  backup fstat size ops = Some events -> cache_events l = events -> In a counters ->
  session start l a = Some (Whole (sum_over (contribution a ops) (pulled ops) +
    sum_over (fun r => amt a (incs (Increment r))) (increments l) + errors l * amt a [(bs "Errors", 1)])).
Proof.
  intros N E H C A. unfold session. rewrite (session_spec l _ a 0 (tracker_zero start a A)). rewrite Z.add_0_l, sum_split, C.
  rewrite (backup_events _ _ _ _ N E H), sum_flat, sum_map. do 4 f_equal. apply sum_ext. intros p. apply pair_contribution.
Qed.

Ltac names := repeat match goal with |- context [beq_bytes ?x ?y] =>
  let v := eval vm_compute in (beq_bytes x y) in change (beq_bytes x y) with v end; cbv iota.


Ltac contrib :=
  intros ops p; unfold contribution, is_changed, is_new, is_deleted, amt, given;
  repeat match goal with |- context [exists_there (?f p)] =>
     let t := fresh "t" in set (t := exists_there (f p)) in * end;
  destruct (counted ops p), (done ops p); repeat match goal with t := exists_there _ |- _ => unfold t; clear t end;
  destruct (fst p) as [r|], (snd p) as [r'|]; cbn [exists_there andb negb app];
  try destruct (q_there r); try destruct (q_there r'); cbn [andb negb sum_over fold_right fst snd]; names; change (bytes_of None) with 0; lia.

Lemma c_sf : forall ops p, contribution (bs "SourceFiles") ops p = if counted ops p && given (fst p) then 1 else 0.
Proof. contrib. Qed.
Lemma c_ss : forall ops p, contribution (bs "SourceFileSize") ops p = if counted ops p then bytes_of (fst p) else 0.
Proof. contrib. Qed.
Lemma c_mf : forall ops p, contribution (bs "MirrorFiles") ops p = if counted ops p && given (snd p) then 1 else 0.
Proof. contrib. Qed.
Lemma c_ms : forall ops p, contribution (bs "MirrorFileSize") ops p = if counted ops p then bytes_of (snd p) else 0.
Proof. contrib. Qed.
Lemma c_nf : forall ops p, contribution (bs "NewFiles") ops p = if is_new ops p then 1 else 0.
Proof. contrib. Qed.
Lemma c_ns : forall ops p, contribution (bs "NewFileSize") ops p = if is_new ops p then bytes_of (fst p) else 0.
Proof. contrib. Qed.
Lemma c_df : forall ops p, contribution (bs "DeletedFiles") ops p = if is_deleted ops p then 1 else 0.
Proof. contrib. Qed.
Lemma c_ds : forall ops p, contribution (bs "DeletedFileSize") ops p = if is_deleted ops p then bytes_of (snd p) else 0.
Proof. contrib. Qed.
Lemma c_cf : forall ops p, contribution (bs "ChangedFiles") ops p = if is_changed ops p then 1 else 0.
Proof. contrib. Qed.
Lemma c_cs : forall ops p, contribution (bs "ChangedSourceSize") ops p = if is_changed ops p then bytes_of (fst p) else 0.
Proof. contrib. Qed.
Lemma c_cm : forall ops p, contribution (bs "ChangedMirrorSize") ops p = if is_changed ops p then bytes_of (snd p) else 0.
Proof. contrib. Qed.
Lemma c_if : forall ops p, contribution (bs "IncrementFiles") ops p = 0.
Proof. contrib. Qed.
Lemma c_is : forall ops p, contribution (bs "IncrementFileSize") ops p = 0.
Proof. contrib. Qed.
Lemma c_er : forall ops p, contribution (bs "Errors") ops p = 0.
Proof. contrib. Qed.

Lemma sum_zero {T} (l : list T) : sum_over (fun _ => 0) l = 0.
Proof. induction l; cbn; auto. Qed.
Lemma sum_one {T} (l : list T) : sum_over (fun _ => 1) l = Z.of_nat (length l).
Proof. induction l; auto. rewrite sum_over_cons, IHl. cbn [length]. lia. Qed.

Lemma inc_amt a r : amt a (incs (Increment r)) = (if beq_bytes (bs "IncrementFiles") a then 1 else 0) +
   (if beq_bytes (bs "IncrementFileSize") a then bytes_of (Some r) else 0).
Proof. unfold amt. cbn [sum_over fold_right incs fst snd]. unfold reg_size, bytes_of. lia. Qed.
Lemma err_amt a : amt a [(bs "Errors", 1)] = if beq_bytes (bs "Errors") a then 1 else 0.
Proof. unfold amt. cbn [sum_over fold_right fst snd]. lia. Qed.

(** Every counter written into the session statistics, whatever the order in which files,
    increments and errors were reported, is the number or the size it is supposed to be. *)
Theorem C36_counters : forall fstat size ops events start l,
  NoDup (map pidx (pulled ops)) -> same_index (pulled ops) ->
  backup fstat size ops = Some events -> cache_events l = events ->
  let pairs := pulled ops in
  let value a := session start l (bs a) in
  let is z := Some (Whole z) in
  value "SourceFiles"%string = is (count (fun p => counted ops p && given (fst p)) pairs) /\
  value "SourceFileSize"%string = is (sum_over (fun p => if counted ops p then bytes_of (fst p) else 0) pairs) /\
  value "MirrorFiles"%string = is (count (fun p => counted ops p && given (snd p)) pairs) /\
  value "MirrorFileSize"%string = is (sum_over (fun p => if counted ops p then bytes_of (snd p) else 0) pairs) /\
  value "NewFiles"%string = is (count (is_new ops) pairs) /\
  value "NewFileSize"%string = is (sum_over (fun p => if is_new ops p then bytes_of (fst p) else 0) pairs) /\
  value "DeletedFiles"%string = is (count (is_deleted ops) pairs) /\
  value "DeletedFileSize"%string = is (sum_over (fun p => if is_deleted ops p then bytes_of (snd p) else 0) pairs) /\
  value "ChangedFiles"%string = is (count (is_changed ops) pairs) /\
  value "ChangedSourceSize"%string = is (sum_over (fun p => if is_changed ops p then bytes_of (fst p) else 0) pairs) /\
  value "ChangedMirrorSize"%string = is (sum_over (fun p => if is_changed ops p then bytes_of (snd p) else 0) pairs) /\
  value "IncrementFiles"%string = is (Z.of_nat (length (increments l))) /\
  value "IncrementFileSize"%string = is (sum_over (fun r => bytes_of (Some r)) (increments l)) /\
  value "Errors"%string = is (errors l).
Proof.
  intros fstat size ops events start l N E H C pairs value is.
  assert (V : forall a, In (bs a) counters -> value a = is (sum_over (contribution (bs a) ops) pairs +
      sum_over (fun r => amt (bs a) (incs (Increment r))) (increments l) + errors l * amt (bs a) [(bs "Errors", 1)])).
  { intros a. apply (counter_value _ _ _ _ start l (bs a) N E H C). }
  repeat split;
    (match goal with |- value ?a = _ => rewrite (V a) by (vm_compute; tauto) end;
     unfold is; f_equal; f_equal; rewrite err_amt, (sum_ext _ _ (increments l) (inc_amt _)); unfold count; names;
     first [ rewrite (sum_ext _ _ pairs (c_sf ops)) | rewrite (sum_ext _ _ pairs (c_ss ops))
           | rewrite (sum_ext _ _ pairs (c_mf ops)) | rewrite (sum_ext _ _ pairs (c_ms ops))
           | rewrite (sum_ext _ _ pairs (c_nf ops)) | rewrite (sum_ext _ _ pairs (c_ns ops))
           | rewrite (sum_ext _ _ pairs (c_df ops)) | rewrite (sum_ext _ _ pairs (c_ds ops))
           | rewrite (sum_ext _ _ pairs (c_cf ops)) | rewrite (sum_ext _ _ pairs (c_cs ops))
           | rewrite (sum_ext _ _ pairs (c_cm ops)) | rewrite (sum_ext _ _ pairs (c_if ops))
           | rewrite (sum_ext _ _ pairs (c_is ops)) | rewrite (sum_ext _ _ pairs (c_er ops)) ];
     rewrite ?Z.add_0_r, ?sum_zero, ?sum_one, ?Z.mul_0_r, ?Z.mul_1_r, ?Z.add_0_l, ?Z.add_0_r; try reflexivity).
Qed.

Lemma of_to_cents z : of_cents (z * 100) = Whole z.
Proof.
  unfold of_cents. rewrite Z.rem_mul, Z.quot_mul by lia. reflexivity.
Qed.
Lemma add_whole a b : add_num (Whole a) (Whole b) = Whole (a + b).
Proof. unfold add_num. cbn [to_cents]. rewrite <- Z.mul_add_distr_r. apply of_to_cents. Qed.
Lemma sub_whole a b : sub_num (Whole a) (Whole b) = Whole (a - b).
Proof. unfold sub_num. cbn [to_cents]. rewrite <- Z.mul_sub_distr_r. apply of_to_cents. Qed.

(** The numbers fit together: if what is listed exists, and pairs neither reported as
    changed nor updated have both sides, of the same size, then the difference between
    source and mirror is what was added and deleted, and the reported change of the size
    of the repository is the growth of the mirror plus the increments. *)
Theorem C36_balance : forall fstat size ops events start l,
  NoDup (map pidx (pulled ops)) -> same_index (pulled ops) ->
  backup fstat size ops = Some events -> cache_events l = events ->
  (forall p, In p (pulled ops) -> given (fst p) = exists_there (fst p) /\ given (snd p) = exists_there (snd p)) ->
  (forall p, In p (pulled ops) -> reported_changed (pidx p) ops = false -> done ops p = false ->
     given (fst p) = true /\ given (snd p) = true /\ bytes_of (fst p) = bytes_of (snd p)) ->
  exists sf mf nf df ss ms is tot,
    session start l (bs "SourceFiles") = Some (Whole sf) /\ session start l (bs "MirrorFiles") = Some (Whole mf) /\
    session start l (bs "NewFiles") = Some (Whole nf) /\ session start l (bs "DeletedFiles") = Some (Whole df) /\
    session start l (bs "SourceFileSize") = Some (Whole ss) /\ session start l (bs "MirrorFileSize") = Some (Whole ms) /\
    session start l (bs "IncrementFileSize") = Some (Whole is) /\ total_change (session start l) = Some (Whole tot) /\
    sf - mf = nf - df /\ tot = ss - ms + is.
Proof.
  intros fstat size ops events start l N E H C HG HU.
  destruct (C36_counters fstat size ops events start l N E H C) as
    (A1 & A2 & A3 & A4 & A5 & A6 & A7 & A8 & A9 & A10 & A11 & A12 & A13 & A14).
  do 8 eexists. split; [exact A1|]. split; [exact A3|]. split; [exact A5|]. split; [exact A7|].
  split; [exact A2|]. split; [exact A4|]. split; [exact A13|].
  split. { unfold total_change. rewrite A6, A10, A13, A8, A11. rewrite !add_whole, sub_whole. reflexivity. }
  assert (M : forall f g : cpair -> Z, sum_over f (pulled ops) - sum_over g (pulled ops) = sum_over (fun x => f x + - g x) (pulled ops)).
  { intros f g. rewrite sum_add, sum_opp. lia. }
  split.
  - unfold count. rewrite !M. apply sum_ext_in. intros p Hp. destruct (HG p Hp) as [G1 G2].
    specialize (HU p Hp). unfold counted, is_new, is_deleted. rewrite G1, G2 in *.
    destruct (done ops p); cbn [andb].
    + rewrite orb_true_r. destruct (exists_there (fst p)), (exists_there (snd p)); reflexivity.
    + destruct (reported_changed (pidx p) ops); cbn [negb orb andb]; [reflexivity|].
      destruct HU as (-> & -> & _); auto.
  - set (I := sum_over (fun r => bytes_of (Some r)) (increments l)).
    set (F := fun p => (if is_new ops p then bytes_of (fst p) else 0) + (if is_changed ops p then bytes_of (fst p) else 0)).
    set (G := fun p => (if is_deleted ops p then bytes_of (snd p) else 0) + (if is_changed ops p then bytes_of (snd p) else 0)).
    assert (Q : sum_over F (pulled ops) - sum_over G (pulled ops) =
       sum_over (fun p => if counted ops p then bytes_of (fst p) else 0) (pulled ops) -
       sum_over (fun p => if counted ops p then bytes_of (snd p) else 0) (pulled ops)).
    { rewrite !M. apply sum_ext_in. intros p Hp. destruct (HG p Hp) as [G1 G2].
      specialize (HU p Hp). unfold F, G, counted, is_new, is_deleted, is_changed. rewrite G1, G2 in *.
      assert (Z1 : exists_there (fst p) = false -> bytes_of (fst p) = 0).
      { rewrite <- G1. destruct (fst p); [discriminate|reflexivity]. }
      assert (Z2 : exists_there (snd p) = false -> bytes_of (snd p) = 0).
      { rewrite <- G2. destruct (snd p); [discriminate|reflexivity]. }
      destruct (done ops p); cbn [andb].
      + rewrite orb_true_r. destruct (exists_there (fst p)), (exists_there (snd p)); cbn [negb andb];
          rewrite ?Z1, ?Z2 by auto; lia.
      + destruct (reported_changed (pidx p) ops); cbn [negb orb]; [reflexivity|].
        destruct HU as (_ & _ & ->); auto. lia. }
    unfold F, G in Q. rewrite !sum_add in Q. lia.
Qed.

(** ** Round trip *)
Lemma words_word w s : forallb (fun c => negb (is_space c)) w = true ->
  forall cur, words_from cur (w ++ s) = words_from (rev w ++ cur) s.
Proof.
  induction w as [|c w IH]; intros H cur; cbn; auto. cbn in H. apply andb_true_iff in H as [H1 H2].
  apply negb_true_iff in H1. rewrite H1, IH by auto. now rewrite <- app_assoc.
Qed.
Lemma words_first w s : w <> [] -> forallb (fun c => negb (is_space c)) w = true ->
  words (w ++ bs " " ++ s) = w :: words s.
Proof.
  intros N H. unfold words. rewrite words_word by auto. rewrite app_nil_r.
  change (bs " " ++ s) with (chr 32 :: s). cbn [words_from]. change (is_space (chr 32)) with true. cbv iota.
  destruct (rev w) as [|c r] eqn:R.
  - apply (f_equal (@rev _)) in R. rewrite rev_involutive in R. now subst.
  - rewrite <- R, rev_involutive. reflexivity.
Qed.
Lemma words_last w : w <> [] -> forallb (fun c => negb (is_space c)) w = true -> words w = [w].
Proof.
  intros N H. unfold words. rewrite <- (app_nil_r w) at 1. rewrite words_word by auto. rewrite app_nil_r.
  cbn [words_from]. destruct (rev w) as [|c r] eqn:R.
  - apply (f_equal (@rev _)) in R. rewrite rev_involutive in R. now subst.
  - rewrite <- R, rev_involutive. reflexivity.
Qed.

Definition word (w : bytes) : Prop := w <> [] /\ forallb (fun c => negb (is_space c)) w = true.
Lemma digit_nospace c : is_digit c = true -> negb (is_space c) = true.
Proof.
  intros H. apply is_digit_ord in H. unfold is_space. fold (ord c). apply negb_true_iff.
  destruct (N.leb_spec 9 (ord c)), (N.leb_spec (ord c) 13), (N.leb_spec 28 (ord c)), (N.leb_spec (ord c) 32); cbn; auto; lia.
Qed.
Lemma digits_word s : forallb is_digit s = true -> forallb (fun c => negb (is_space c)) s = true.
Proof.
  intros H. rewrite forallb_forall in *. intros c Hc. apply digit_nospace. auto.
Qed.
Lemma dec_Z_word z : word (dec_Z z).
Proof.
  unfold dec_Z. destruct (z <? 0).
  - split; [destruct (dec _); discriminate|]. cbn [forallb]. rewrite digits_word; [reflexivity|apply dec_digits].
  - split; [apply dec_nonempty|]. apply digits_word, dec_digits.
Qed.
Lemma fmt2_word c : word (fmt2 c).
Proof.
  unfold fmt2. split.
  - destruct (c <? 0); [discriminate|]. cbn [app]. pose proof (dec_nonempty (Z.to_N (Z.abs c / 100))).
    destruct (dec _); [congruence|discriminate].
  - rewrite !forallb_app. rewrite (digits_word (dec _)) by apply dec_digits.
    rewrite (digits_word (dec_pad _ _)) by apply dec_pad_digits.
    destruct (c <? 0); reflexivity.
Qed.
Lemma word_no_nl w : word w -> ~ In nl w.
Proof.
  intros [_ H] I. rewrite forallb_forall in H. apply H in I. discriminate.
Qed.

Lemma to_double_exact z : exact z -> to_double z = z.
Proof.
  intros H. unfold to_double. destruct (Z.leb_spec (Z.abs z) (2 ^ 53)); auto. unfold exact in H. lia.
Qed.
Lemma parse_dec_Z z : exact z -> parse_num (dec_Z z) = Some (Whole z).
Proof.
  intros H. unfold parse_num. rewrite break_on_nosep.
  - rewrite parse_Z_dec_Z. cbn [option_map]. now rewrite to_double_exact.
  - unfold dec_Z. destruct (z <? 0); cbn [In]; intros I.
    + destruct I as [I|I]; [discriminate|]. revert I. apply digits_no_byte; [apply dec_digits|reflexivity].
    + revert I. apply digits_no_byte; [apply dec_digits|reflexivity].
Qed.
Lemma parse_fmt2 c : (forall z, c = z * 100 -> exact z) -> parse_num (fmt2 c) = Some (of_cents c).
Proof.
  intros HE. unfold parse_num, fmt2.
  set (n := Z.to_N (Z.abs c / 100)). set (m := Z.to_N (Z.abs c mod 100)).
  pose proof (Z.mod_pos_bound (Z.abs c) 100 ltac:(lia)) as HM.
  pose proof (Z.div_mod (Z.abs c) 100 ltac:(lia)) as HD.
  pose proof (Z.div_pos (Z.abs c) 100 ltac:(lia) ltac:(lia)) as HP.
  assert (Hc : Z.of_N n * 100 + Z.of_N m = Z.abs c) by (unfold n, m; lia).
  assert (NP : ~ In (chr 46) (dec n)) by (apply digits_no_byte; [apply dec_digits|reflexivity]).
  assert (B : break_on (chr 46) ((if c <? 0 then bs "-" else []) ++ dec n ++ bs "." ++ dec_pad 2 m) =
     ((if c <? 0 then bs "-" else []) ++ dec n, Some (dec_pad 2 m))).
  { rewrite app_assoc. change (bs "." ++ dec_pad 2 m) with (chr 46 :: dec_pad 2 m). apply break_on_app.
    intros I. apply in_app_iff in I as [I|I]; auto. destruct (c <? 0); [destruct I as [I|[]]; discriminate|destruct I]. }
  rewrite B.
  assert (LP : length (dec_pad 2 m) = 2%nat) by (apply dec_pad_length; [lia|unfold m; change (10 ^ N.of_nat 2)%N with 100%N; lia]).
  assert (FIN : forall z, z = c -> match of_cents z with Whole z => Some (Whole (to_double z)) | Cents c => Some (Cents c) end = Some (of_cents c)).
  { intros z ->. unfold of_cents. destruct (Z.eqb_spec (Z.rem c 100) 0) as [R|R]; auto.
    rewrite to_double_exact; auto. apply HE. pose proof (Z.quot_rem' c 100). lia. }
  assert (S : split_sign ((if c <? 0 then bs "-" else []) ++ dec n) = (c <? 0, dec n)).
  { destruct (c <? 0).
    - reflexivity.
    - cbn [app]. unfold split_sign. pose proof (dec_digits n) as D. destruct (dec n) as [|x r] eqn:Q; auto.
      cbn [forallb] in D. apply andb_true_iff in D as [D _].
      destruct (Ascii.eqb x (chr 45)) eqn:X; auto. apply Ascii.eqb_eq in X. subst x. discriminate. }
  rewrite S. rewrite LP. cbn [Nat.eqb]. rewrite parse_N_dec, parse_N_dec_pad. cbv zeta. rewrite Hc. apply FIN.
  destruct (Z.ltb_spec c 0); lia.
Qed.

(** the lines of a statistics file *)
Definition entry := (bytes * bytes * bytes)%type.
Definition line_of (e : entry) : bytes := let '(a, v, r) := e in a ++ bs " " ++ v ++ r.
Definition good_rest (r : bytes) : Prop := r = [] \/ exists t, r = bs " " ++ t /\ ~ In nl t.
Lemma read_entry a v r n o : word a -> word v -> good_rest r -> mem_attr a = true -> parse_num v = Some n ->
  read_line (line_of (a, v, r)) o = Some (upd a (Some n) o).
Proof.
  intros [A1 A2] [V1 V2] R M P. unfold read_line.
  assert (NE : line_of (a, v, r) <> []) by (cbn; destruct a; [congruence|discriminate]).
  assert (W : exists x, words (line_of (a, v, r)) = a :: v :: x).
  { cbn [line_of]. rewrite words_first by auto. destruct R as [->|(t & -> & _)].
    - rewrite app_nil_r, words_last by auto. eauto.
    - rewrite words_first by auto. eauto. }
  destruct W as [x W]. destruct (line_of (a, v, r)) as [|c l]; [congruence|]. rewrite W, M, P. reflexivity.
Qed.

Lemma split_lines (ls : list bytes) : Forall (fun l => ~ In nl l) ls ->
  split_on nl (concat (map (fun l => l ++ [nl]) ls)) = ls ++ [[]].
Proof.
  induction 1 as [|l ls H _ IH]; cbn [map concat]; [reflexivity|].
  rewrite <- app_assoc. cbn [app]. rewrite split_on_app by auto. rewrite IH. reflexivity.
Qed.

Section RT.
Variable human : Z -> bytes.
Variable pretty ipretty : M_Stats.num -> bytes.

Definition order : list bytes := time_attrs ++ file_attrs ++ [bs "TotalDestinationSizeChange"; bs "Errors"].
Definition value_text (a : bytes) (v : M_Stats.num) : bytes :=
  if existsb (beq_bytes a) time_attrs then fmt2 (to_cents v)
  else if beq_bytes a (bs "Errors") then dec_Z (int_num v) else str_num v.
Definition size_attrs : list bytes :=
  [bs "SourceFileSize"; bs "MirrorFileSize"; bs "NewFileSize"; bs "DeletedFileSize"; bs "ChangedSourceSize"; bs "ChangedMirrorSize"; bs "IncrementFileSize"; bs "TotalDestinationSizeChange"].
Definition rest_text (a : bytes) (v : M_Stats.num) : bytes :=
  if beq_bytes a (bs "StartTime") || beq_bytes a (bs "EndTime") then paren (pretty v)
  else if beq_bytes a (bs "ElapsedTime") then paren (ipretty v)
  else if existsb (beq_bytes a) size_attrs then paren (human (int_num v)) else [].
Definition entries (o : attrs) (l : list bytes) : list entry :=
  flat_map (fun a => match shown o a with Some v => [(a, value_text a v, rest_text a v)] | None => [] end) l.

Lemma text_entries o l : concat (map (fun e => line_of e ++ [nl]) (entries o l)) =
  concat (map (fun a => match shown o a with Some v => a ++ bs " " ++ value_text a v ++ rest_text a v ++ [nl] | None => [] end) l).
Proof.
  unfold entries. induction l as [|a l IH]; cbn [flat_map map concat]; auto.
  rewrite map_app, concat_app. f_equal; [|exact IH]. destruct (shown o a); cbn [map concat line_of]; auto.
  now rewrite app_nil_r, <- !app_assoc.
Qed.

Lemma string_entries o : stats_string human pretty ipretty o = concat (map (fun e => line_of e ++ [nl]) (entries o order)).
Proof.
  rewrite text_entries. unfold stats_string, order. rewrite !map_app, !concat_app. f_equal; [|f_equal].
  - unfold time_string, time_attrs. cbn [map concat]. rewrite app_nil_r. unfold shown. names.
    destruct (o (bs "StartTime")), (o (bs "EndTime")), (elapsed o); reflexivity.
  - unfold misc_string. cbn [map concat]. rewrite app_nil_r. unfold shown. names.
    destruct (total_change o), (o (bs "Errors")); reflexivity.
Qed.

Hypothesis human_line : forall z, ~ In nl (human z).
Hypothesis pretty_line : forall v, ~ In nl (pretty v).
Hypothesis ipretty_line : forall v, ~ In nl (ipretty v).

Lemma paren_rest s : ~ In nl s -> good_rest (paren s).
Proof.
  intros H. right. exists (bs "(" ++ s ++ bs ")"). split; [reflexivity|].
  intros I. apply in_app_iff in I as [I|I]; [destruct I as [I|[]]; discriminate|].
  apply in_app_iff in I as [I|I]; auto. destruct I as [I|[]]. discriminate.
Qed.
Lemma rest_good a v : good_rest (rest_text a v).
Proof using human_line pretty_line ipretty_line.
  unfold rest_text. destruct (_ || _); [now apply paren_rest|]. destruct (beq_bytes a _); [now apply paren_rest|].
  destruct (existsb _ _); [now apply paren_rest|now left].
Qed.
Lemma value_word a v : word (value_text a v).
Proof.
  unfold value_text, str_num. destruct (existsb _ _); [apply fmt2_word|]. destruct (beq_bytes _ _); [apply dec_Z_word|].
  destruct v; [apply dec_Z_word|apply fmt2_word].
Qed.
Lemma value_parse a v : representable a v -> parse_num (value_text a v) = Some v.
Proof.
  intros R. unfold value_text. destruct (existsb _ _).
  - destruct v as [z|c]; cbn [to_cents representable] in *.
    + rewrite parse_fmt2; [now rewrite of_to_cents|]. intros z' H. assert (z' = z) as -> by lia. auto.
    + rewrite parse_fmt2.
      * unfold of_cents. destruct (Z.eqb_spec (Z.rem c 100) 0); [tauto|reflexivity].
      * intros z ->. exfalso. apply (proj1 R). now rewrite Z.rem_mul by lia.
  - destruct (beq_bytes a _) eqn:E.
    + apply beq_bytes_true in E. destruct v as [z|c]; cbn in *; [now apply parse_dec_Z|tauto].
    + destruct v as [z|c]; cbn [str_num representable] in *; [now apply parse_dec_Z|].
      rewrite parse_fmt2.
      * unfold of_cents. destruct (Z.eqb_spec (Z.rem c 100) 0); [tauto|reflexivity].
      * intros z ->. exfalso. apply (proj1 R). now rewrite Z.rem_mul by lia.
Qed.

Lemma attr_word a : In a stat_attrs -> word a /\ mem_attr a = true.
Proof.
  intros H. repeat (destruct H as [<-|H]; [split; [split; [discriminate|reflexivity]|reflexivity]|]). destruct H.
Qed.

Lemma read_entries o l : forall acc, (forall a, In a l -> In a stat_attrs) -> NoDup l ->
  (forall a v, In a l -> shown o a = Some v -> representable a v) ->
  exists o', read_lines (map line_of (entries o l) ++ [[]]) acc = Some o' /\
    (forall a, ~ In a l -> o' a = acc a) /\
    (forall a, In a l -> o' a = match shown o a with Some v => Some v | None => acc a end).
Proof using human_line pretty_line ipretty_line.
  induction l as [|a l IH]; intros acc HA HN HR.
  - exists acc. cbn. repeat split; auto. tauto.
  - inversion HN; subst. unfold entries. cbn [flat_map]. fold (entries o l).
    destruct (shown o a) as [v|] eqn:SV.
    + cbn [app map read_lines]. destruct (attr_word a) as [AW AM]; [apply HA; now left|].
      rewrite (read_entry _ _ _ v acc AW (value_word a v) (rest_good a v) AM).
      2:{ apply value_parse. apply HR; [now left|auto]. }
      destruct (IH (upd a (Some v) acc)) as (o' & E & U & V); auto.
      { intros; apply HA; now right. } { intros b w Hb. apply HR. now right. }
      exists o'. split; auto. split.
      * intros b Hb. rewrite U; [|intros I; apply Hb; now right]. unfold upd.
        destruct (beq_bytes a b) eqn:Q; auto. apply beq_bytes_true in Q. subst. exfalso. apply Hb. now left.
      * intros b [<-|Hb].
        -- rewrite U by auto. rewrite SV. unfold upd. now rewrite beq_bytes_refl.
        -- rewrite V by auto. destruct (shown o b); auto. unfold upd.
           destruct (beq_bytes a b) eqn:Q; auto. apply beq_bytes_true in Q. subst. tauto.
    + cbn [app]. destruct (IH acc) as (o' & E & U & V); auto.
      { intros; apply HA; now right. } { intros b w Hb. apply HR. now right. }
      exists o'. split; auto. split.
      * intros b Hb. apply U. intros I; apply Hb; now right.
      * intros b [<-|Hb]; auto. rewrite U by auto. now rewrite SV.
Qed.

Lemma entries_lines o l : (forall a, In a l -> In a stat_attrs) -> Forall (fun x => ~ In nl x) (map line_of (entries o l)).
Proof using human_line pretty_line ipretty_line.
  intros HA. apply Forall_forall. intros x Hx I. apply in_map_iff in Hx as (e & <- & He).
  unfold entries in He. apply in_flat_map in He as (a & Ha & He). destruct (shown o a) as [v|]; [|destruct He].
  destruct He as [<-|[]]. cbn [line_of] in I. apply in_app_iff in I as [I|I].
  { revert I. apply word_no_nl. now apply attr_word, HA. }
  apply in_app_iff in I as [I|I]. { destruct I as [I|[]]; discriminate. }
  apply in_app_iff in I as [I|I]. { revert I. apply word_no_nl, value_word. }
  destruct (rest_good a v) as [E|(t & E & N)]; rewrite E in I; [destruct I|].
  apply in_app_iff in I as [I|I]; [destruct I as [I|[]]; discriminate|auto].
Qed.

(** A statistics file read again has all the values written, whatever texts stand in the
    parentheses. *)
Theorem C36_round_trip : forall o,
  (forall a v, In a stat_attrs -> shown o a = Some v -> representable a v) ->
  exists o', read_string (stats_string human pretty ipretty o) = Some o' /\
    forall a, In a stat_attrs -> o' a = shown o a.
Proof using human_line pretty_line ipretty_line.
  intros o HR. unfold read_string. rewrite string_entries.
  assert (OA : forall a, In a order <-> In a stat_attrs).
  { intros a. unfold order, stat_attrs, misc_attrs. rewrite !in_app_iff. cbn [In]. tauto. }
  replace (map (fun e => line_of e ++ [nl]) (entries o order)) with (map (fun l => l ++ [nl]) (map line_of (entries o order)))
    by (now rewrite map_map).
  rewrite split_lines by (apply entries_lines; intros; now apply OA).
  destruct (read_entries o order no_attrs) as (o' & E & _ & V).
  - intros; now apply OA.
  - clear. assert (B : (fix nd (l : list bytes) := match l with [] => true | x :: r => negb (existsb (beq_bytes x) r) && nd r end) order = true)
      by (vm_compute; reflexivity).
    revert B. induction order as [|x r IH]; intros B; constructor.
    + apply andb_true_iff in B as [B _]. apply negb_true_iff in B. intros I.
      assert (T : existsb (beq_bytes x) r = true) by (apply existsb_exists; exists x; split; auto; apply beq_bytes_refl).
      congruence.
    + apply IH. now apply andb_true_iff in B as [_ B].
  - intros a v Ha. apply HR. now apply OA.
  - exists o'. split; auto. intros a Ha. rewrite V by now apply OA. destruct (shown o a); auto.
Qed.
End RT.
Print Assumptions C36_counters.
Print Assumptions C36_balance.
Print Assumptions C36_round_trip.

(** The bound is needed: a size of 2^53 + 1 bytes is read back as 2^53. *)
Theorem C36_round_trip_refuted :
  exists o o', read_string (stats_string (fun _ => []) (fun _ => []) (fun _ => []) o) = Some o' /\
    o (bs "SourceFileSize") = Some (Whole (2 ^ 53 + 1)) /\ o' (bs "SourceFileSize") = Some (Whole (2 ^ 53)).
Proof.
  exists (upd (bs "SourceFileSize") (Some (Whole (2 ^ 53 + 1))) no_attrs).
  eexists. split; [vm_compute; reflexivity|]. split; vm_compute; reflexivity.
Qed.
Print Assumptions C36_round_trip_refuted.

(** examples: a session over the tree of C35, written and read *)
Example C36_example_session :
  let o := finish (Cents 171) (session (Whole 1)
     (map FromCache (match backup true 2 x_ops with Some e => e | None => [] end) ++ [Increment x_old; Error])) in
  map (fun a => o (bs a)) ["SourceFiles"; "MirrorFiles"; "NewFiles"; "DeletedFiles"; "ChangedFiles"; "ChangedSourceSize"; "IncrementFileSize"; "Errors"]%string
  = map (fun z => Some (Whole z)) [3; 4; 0; 1; 1; 4; 3; 1] /\
  elapsed o = Some (Cents 71) /\ total_change o = Some (Whole (4 + 3 - 5 - 3)).
Proof. vm_compute. repeat split; reflexivity. Qed.

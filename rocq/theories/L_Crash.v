(** Lemmas about M_Crash *)
From Coq Require Import List ZArith Bool Lia Sorting.Permutation Sorting.Sorted.
From Verif Require Import Base L_Base M_Core L_Core M_Crash.
Import List ListNotations.
Local Open Scope Z_scope.

Section S.
Context {attr : Type}.
Variable delta : bytes -> bytes -> bytes.
Variable patch : bytes -> bytes -> option bytes.
Variable sha1 : attr -> bytes -> option bytes.
Variable same : attr -> attr -> bool.
Variable loose : attr -> attr -> bool.
(** the contents which occur *)
Variable P : bytes -> Prop.
Hypothesis occ_nil : P [].
Hypothesis patch_delta : forall basis new, P basis -> P new -> patch basis (delta basis new) = Some new.
Hypothesis sha1_inj : forall a b x y h, P x -> P y -> sha1 a x = Some h -> sha1 b y = Some h -> x = y.
(** attributes recorded without a hash count as equal to themselves *)
Hypothesis loose_self : forall a c, sha1 a c = None -> loose a a = true.

Notation node := (node attr).
Notation inc := (inc attr).
Notation chain := (chain patch).
Notation okn := (okn P).
Notation meta_of := (meta_of sha1).
Notation session_prog := (session_prog delta sha1 same).
Notation regress_prog := (regress_prog patch sha1 loose).

(** abstract state of a path during a session *)
Definition arun (o : pop attr) (s : node * option inc) : node * option inc :=
  match o with
  | SetMirror n => (n, snd s)
  | SetInc i => (fst s, Some i)
  | DelInc => (fst s, None)
  end.
Fixpoint aruns (l : list (pop attr)) (s : node * option inc) :=
  match l with [] => s | o :: l' => aruns l' (arun o s) end.

Definition tail_of (t1 : Z) (i : option inc) : list (Z * inc) :=
  match i with Some i => [(t1, i)] | None => [] end.
Definition conc (ps0 : @pstate attr) (t1 : Z) (s : node * option inc) : @pstate attr :=
  mk_ps (fst s) (incs ps0 ++ tail_of t1 (snd s)) (metas ps0).

Lemma filter_old t1 (l : list (Z * inc)) : Forall (fun x => fst x < t1) l ->
  filter (fun x => negb (fst x =? t1)) l = l.
Proof using.
  induction 1 as [|x l Hx Hl IH]; cbn; [reflexivity|].
  replace (fst x =? t1) with false by (symmetry; apply Z.eqb_neq; lia). cbn. now rewrite IH.
Qed.

Lemma run_pop_conc ps0 t1 o s : Forall (fun x => fst x < t1) (incs ps0) ->
  run_pop t1 o (conc ps0 t1 s) = conc ps0 t1 (arun o s).
Proof using.
  intros H. destruct s as [m ti].
  assert (E : filter (fun x => negb (fst x =? t1)) (incs ps0 ++ tail_of t1 ti) = incs ps0).
  { rewrite filter_app, filter_old by assumption.
    destruct ti; cbn; rewrite ?Z.eqb_refl; cbn; now rewrite app_nil_r. }
  destruct o; cbn [run_pop conc arun fst snd incs mirror metas].
  - reflexivity.
  - unfold conc; cbn. now rewrite E.
  - unfold conc; cbn. now rewrite E, app_nil_r.
Qed.

Lemma run_pops_conc ps0 t1 l : forall s, Forall (fun x => fst x < t1) (incs ps0) ->
  run_pops t1 l (conc ps0 t1 s) = conc ps0 t1 (aruns l s).
Proof using.
  induction l as [|o l IH]; intros s H; cbn; [reflexivity|].
  rewrite run_pop_conc by assumption. now apply IH.
Qed.

Lemma conc_self ps0 t1 : conc ps0 t1 (mirror ps0, None) = ps0.
Proof using. destruct ps0. unfold conc. cbn. now rewrite app_nil_r. Qed.

Lemma aruns_app l l' s : aruns (l ++ l') s = aruns l' (aruns l s).
Proof using. revert s. induction l; intros; cbn; auto. Qed.

(** ** all intermediate states *)
Fixpoint keeps (KP : node * option inc -> Prop) (l : list (pop attr)) (s : node * option inc) : Prop :=
  KP s /\ match l with [] => True | o :: l' => keeps KP l' (arun o s) end.

Lemma keeps_firstn KP l : forall s k, keeps KP l s -> KP (aruns (firstn k l) s).
Proof using.
  induction l as [|o l IH]; intros s k [H1 H2]; destruct k; cbn; auto.
Qed.
Lemma keeps_here KP l s : keeps KP l s -> KP s.
Proof using. destruct l; intros [H _]; exact H. Qed.
Lemma keeps_app KP l l' s : keeps KP l s -> keeps KP l' (aruns l s) -> keeps KP (l ++ l') s.
Proof using.
  revert s. induction l as [|o l IH]; intros s H H'; cbn; [assumption|].
  destruct H as [H1 H2]. split; auto.
Qed.
Lemma keeps_cons (KP : node * option inc -> Prop) o l s : KP s -> keeps KP l (arun o s) -> keeps KP (o :: l) s.
Proof using. split; assumption. Qed.
Lemma keeps_nil (KP : node * option inc -> Prop) s : KP s -> keeps KP [] s.
Proof using. split; auto. Qed.

Lemma keeps_map {X} (KP : node * option inc -> Prop) (f : X -> pop attr) l s (Q : node * option inc -> Prop) :
  (forall s, Q s -> KP s) -> Q s -> (forall x s, Q s -> Q (arun (f x) s)) -> keeps KP (map f l) s /\ Q (aruns (map f l) s).
Proof using.
  intros HQ. revert s. induction l as [|x l IH]; intros s Hs Hstep; cbn; [split; auto; split; auto|].
  destruct (IH (arun (f x) s) (Hstep x s Hs) Hstep) as [H1 H2]. repeat split; auto.
Qed.

(** ** Recoverable states *)
Definition RecI (v : node) (s : node * option inc) : Prop :=
  match v with
  | Reg c a =>
      P c /\
      (forall c' b, fst s = Reg c' b -> length c' = length c -> P c' /\ (loose a b = true -> c' = c)) /\
      ((exists a', fst s = Reg c a' /\ (sha1 a c = None -> loose a a' = true \/ snd s = None)) \/ exists i, snd s = Some i /\ chain [i] (fst s) = Some c)
  | _ => True
  end.

(** content of the new file can't be mistaken *)
Definition shows (v new : node) : Prop :=
  match v, new with
  | Reg c a, Reg c' b => length c' = length c -> P c' /\ (loose a b = true -> c' = c)
  | _, _ => True
  end.

Lemma keeps_true (KP : node * option inc -> Prop) l s : (forall s, KP s) -> keeps KP l s.
Proof using. intros H. revert s. induction l; intros s; cbn; auto. Qed.

(** without a hash, the attributes of the file must show that it is the recorded one *)
Definition known (v m : node) : Prop :=
  match v, m with Reg c a, Reg _ b => sha1 a c = None -> loose a b = true | _, _ => True end.

Lemma hashed_known v m : (forall a c, sha1 a c <> None) -> known v m.
Proof using. intros H. destruct v, m; cbn; auto. intros E. now apply H in E. Qed.

(** the increment being written, the mirror still old *)
Lemma inc_writes_end z i m ti : aruns (inc_writes z i) (m, ti) = (m, Some i).
Proof using.
  unfold inc_writes. rewrite aruns_app.
  assert (H : forall l ti, fst (aruns (map SetInc l) (m, ti)) = m).
  { induction l; intros; cbn; auto. }
  destruct (aruns (map SetInc (n_incs z)) (m, ti)) as [m' t'] eqn:E. cbn.
  specialize (H (n_incs z) ti). rewrite E in H. cbn in H. now subst.
Qed.

Lemma inc_writes_keeps (KP : node * option inc -> Prop) z i m ti :
  (forall ti, KP (m, ti)) -> keeps KP (inc_writes z i) (m, ti).
Proof using.
  intros H. unfold inc_writes.
  assert (HQ : keeps KP (map SetInc (n_incs z)) (m, ti) /\ fst (aruns (map SetInc (n_incs z)) (m, ti)) = m).
  { apply (keeps_map KP SetInc (n_incs z) (m, ti) (fun s => fst s = m)).
    - intros [] E; cbn in E; subst; auto.
    - reflexivity.
    - intros x [] E; cbn in *; assumption. }
  destruct HQ as [H1 H2]. apply keeps_app; [assumption|].
  destruct (aruns (map SetInc (n_incs z)) (m, ti)) as [m' t']. cbn in H2. subst m'.
  cbn. auto.
Qed.

Lemma attr_writes_end n z a s : aruns (attr_writes n z a) s = (set_attr n a, snd s).
Proof using.
  unfold attr_writes. rewrite aruns_app. cbn.
  f_equal. revert s. induction (n_attrs z); intros; cbn; [reflexivity|]. now rewrite IHl.
Qed.

Lemma attr_writes_keeps (KP : node * option inc -> Prop) n z a s :
  KP s -> (forall b, KP (set_attr n b, snd s)) -> keeps KP (attr_writes n z a) s.
Proof using.
  intros H0 H. unfold attr_writes.
  assert (HQ : keeps KP (map (fun x => SetMirror (set_attr n x)) (n_attrs z)) s /\
     (fun s' => snd s' = snd s /\ (s' = s \/ exists b, fst s' = set_attr n b)) (aruns (map (fun x => SetMirror (set_attr n x)) (n_attrs z)) s)).
  { apply (keeps_map KP _ (n_attrs z) s (fun s' => snd s' = snd s /\ (s' = s \/ exists b, fst s' = set_attr n b))).
    - intros [m t] [E [E2|[b E2]]]; [now subst|]. cbn in E, E2. subst. auto.
    - auto.
    - intros x [m t] [E _]; cbn in *; split; [assumption|]. right. eauto. }
  destruct HQ as [H1 [H2 H3]]. apply keeps_app; [assumption|].
  destruct (aruns _ s) as [m t]. cbn [fst snd] in H2, H3. subst t.
  assert (KP (m, snd s)) by (destruct H3 as [E|[b E]]; [now rewrite E|now subst m]).
  split; [assumption|]. split; [apply H|exact I].
Qed.

Lemma run_attr_seq m ti l : snd (aruns (map (fun x => @SetMirror attr (Dir x)) l) (m, ti)) = ti.
Proof. revert m. induction l; intros; cbn; auto. Qed.

Lemma set_attr_reg_shape c b (a : attr) : set_attr (Reg c b) a = Reg c a.
Proof. reflexivity. Qed.

(** old content still there *)
Lemma rec_old c a (b : attr) ti : P c -> (sha1 a c = None -> loose a b = true \/ ti = None) -> RecI (Reg c a) (Reg c b, ti).
Proof.
  intros HP Hu. cbn. split; [exact HP|]. split; [|left; eauto]. intros c' b' [= <- <-] _. auto.
Qed.

(** a snapshot of the old content is there *)
Lemma rec_snap c a b (x : node) : P c -> shows (Reg c a) x ->
  RecI (Reg c a) (x, Some (ISnap (Reg c b))).
Proof.
  intros HP H. cbn. split; [exact HP|]. split.
  - intros c' b' -> Hl. cbn in H. auto.
  - right. eexists. split; [reflexivity|]. reflexivity.
Qed.

Lemma rec_diff c a c' b : P c -> P c' -> shows (Reg c a) (Reg c' b) ->
  RecI (Reg c a) (Reg c' b, Some (IDiff (delta c' c))).
Proof.
  intros HP HP' H. cbn. split; [exact HP|]. split.
  - intros c'' b' [= -> ->] Hl. cbn in H. auto.
  - right. eexists. split; [reflexivity|]. cbn. now apply patch_delta.
Qed.

(** ** A session interrupted anywhere keeps the file recoverable *)
Lemma replace_keeps z v new m :
  okn v -> okn new -> holds v m -> known v m -> shows v new ->
  keeps (RecI v) (replace_mirror z m new) (m, Some (make_increment delta new m)).
Proof.
  intros Hkv Hkn Hh Hu Hs. destruct v as [|c a| |]; try (apply keeps_true; intros; exact I).
  cbn in Hh. destruct Hh as [b ->]. cbn in Hu. destruct new as [|c' a'|a'|d a']; cbn [make_increment replace_mirror is_dir].
  - cbn [keeps arun fst snd]. split; [apply rec_old; [exact Hkv|auto]|]. split; [|exact I]. apply rec_snap; [exact Hkv|exact I].
  - cbn [keeps arun fst snd]. split; [apply rec_old; [exact Hkv|auto]|]. split; [|exact I]. apply rec_diff; auto.
  - cbn [app]. apply keeps_cons; [apply rec_old; [exact Hkv|auto]|]. cbn [arun fst snd].
    apply keeps_cons; [apply rec_snap; [exact Hkv|exact I]|]. cbn [arun fst snd].
    apply attr_writes_keeps; [apply rec_snap; [exact Hkv|exact I]|].
    intros. cbn. apply rec_snap; [exact Hkv|exact I].
  - cbn [keeps arun fst snd]. split; [apply rec_old; [exact Hkv|auto]|]. split; [|exact I].
    apply rec_snap; [exact Hkv|exact I].
Qed.

(** what the session may put in place of the mirror file *)
Definition session_shows (v src : node) : Prop := shows v src.

Lemma shows_empty v (b : attr) : shows v (Reg [] b).
Proof. destruct v; cbn; auto. destruct content; [auto|discriminate]. Qed.
Lemma shows_absent v : shows v Absent.
Proof. now destruct v. Qed.

Lemma session_keeps src o z v ps0 :
  okn v -> okn src -> holds v (mirror ps0) -> known v (mirror ps0) -> cur_meta ps0 = meta_of v -> shows v src ->
  keeps (RecI v) (session_prog src o z ps0) (mirror ps0, None).
Proof.
  intros Hkv Hks Hh Hu Hm Hs. unfold M_Crash.session_prog. rewrite Hm.
  assert (Hold : forall ti, RecI v (mirror ps0, ti)).
  { intros ti. destruct v as [|c a| |]; try exact I. cbn in Hh. destruct Hh as [b E]. rewrite E in *. cbn in Hu. apply rec_old; [exact Hkv|auto]. }
  assert (Hup : forall new, okn new -> shows v new ->
    keeps (RecI v) (inc_writes z (make_increment delta new (mirror ps0)) ++ replace_mirror z (mirror ps0) new) (mirror ps0, None)).
  { intros new Hkn Hn. apply keeps_app; [apply inc_writes_keeps; auto|].
    rewrite inc_writes_end. now apply replace_keeps. }
  assert (Hattr : match v with Reg c a => sha1 a c <> None | _ => True end -> forall b ti, RecI v (set_attr (mirror ps0) b, ti)).
  { intros Hn b ti. destruct v as [|c a| |]; try exact I. cbn in Hh. destruct Hh as [b' ->]. apply rec_old; [exact Hkv|congruence]. }
  destruct (meta_same same src (meta_of v)) eqn:Ems.
  { destruct o; try (apply keeps_nil; auto). destruct src; try (apply keeps_nil; auto).
    apply keeps_app; [apply inc_writes_keeps; auto|]. rewrite inc_writes_end.
    destruct (attr_of (mirror ps0)); [|apply keeps_nil; auto].
    apply attr_writes_keeps; [auto|]. intros b. apply Hattr. destruct v; try exact I. discriminate Ems. }
  assert (Hun : hash_unchanged sha1 src (meta_of v) = true ->
    keeps (RecI v) (match attr_of src with Some a => attr_writes (mirror ps0) z a | None => [] end) (mirror ps0, None)).
  { intros Hhu. destruct (attr_of src); [|apply keeps_nil; auto]. apply attr_writes_keeps; [auto|]. intros b. apply Hattr.
    destruct v as [|c a'| |]; try exact I. destruct src; try discriminate. cbn in Hhu. now destruct (sha1 a' c). }
  destruct o as [| | | |a|p|].
  - destruct (hash_unchanged _ _ _) eqn:Ehu; auto.
  - destruct (hash_unchanged _ _ _) eqn:Ehu; auto.
  - destruct (is_dir (mirror ps0) && negb (is_dir src)) eqn:E; [|apply keeps_nil; auto].
    destruct v as [|c a| |]; try (apply keeps_true; intros; exact I).
    cbn in Hh. destruct Hh as [b Hb]. rewrite Hb in E. discriminate.
  - destruct src; auto. apply Hup; [exact I|apply shows_absent].
  - destruct src; auto. apply Hup; [exact occ_nil|apply shows_empty].
  - destruct (hash_unchanged _ _ _) eqn:Ehu; auto. destruct p; [|apply keeps_nil; auto].
    apply inc_writes_keeps; auto.
  - destruct (hash_unchanged _ _ _) eqn:Ehu; auto. apply inc_writes_keeps; auto.
Qed.

(** ** The complete program does what the atomic step of M_Core does *)
Lemma replace_end z m new ti : aruns (replace_mirror z m new) (m, ti) = (new, ti).
Proof using.
  unfold replace_mirror. destruct new; cbn [set_attr].
  - reflexivity.
  - destruct (is_dir m); reflexivity.
  - rewrite aruns_app, attr_writes_end. cbn [set_attr].
    f_equal. destruct (is_dir m); [reflexivity|]. rewrite aruns_app. cbn. now destruct m.
  - destruct (is_dir m); reflexivity.
Qed.

Lemma set_attr_self (m : node) a : attr_of m = Some a -> set_attr m a = m.
Proof using. destruct m; cbn; congruence. Qed.

Lemma session_prog_complete src o z ps0 t1 :
  Forall (fun x => fst x < t1) (incs ps0) -> last_time ps0 = Some t1 ->
  run_pops t1 (session_prog src o z ps0) ps0 =
  (let '(m, l, _) := update delta sha1 same (Some t1) src o ps0 in
   mk_ps m l (metas ps0)).
Proof using delta sha1 same.
  intros Hf Hl.
  replace (run_pops t1 (session_prog src o z ps0) ps0)
    with (run_pops t1 (session_prog src o z ps0) (conc ps0 t1 (mirror ps0, None)))
    by now rewrite conc_self.
  rewrite run_pops_conc by assumption.
  assert (Hup : forall new md, conc ps0 t1 (aruns (inc_writes z (make_increment delta new (mirror ps0)) ++ replace_mirror z (mirror ps0) new) (mirror ps0, None)) =
     (let '(m, l, _) := (new, add_inc (Some t1) (make_increment delta new (mirror ps0)) (incs ps0), md : option (meta attr)) in mk_ps m l (metas ps0))).
  { intros. rewrite aruns_app, inc_writes_end, replace_end. reflexivity. }
  assert (Hself : conc ps0 t1 (mirror ps0, None) = mk_ps (mirror ps0) (incs ps0) (metas ps0)).
  { unfold conc. cbn. now rewrite app_nil_r. }
  unfold M_Crash.session_prog, update.
  destruct (meta_same same src (cur_meta ps0)).
  { destruct o; try exact Hself. destruct src; try exact Hself.
    rewrite aruns_app, inc_writes_end. destruct (attr_of (mirror ps0)) eqn:E; [|reflexivity].
    rewrite attr_writes_end, (set_attr_self _ _ E). reflexivity. }
  assert (Hun : conc ps0 t1 (aruns (match attr_of src with Some a => attr_writes (mirror ps0) z a | None => [] end) (mirror ps0, None)) =
    mk_ps (copy_attribs src (mirror ps0)) (incs ps0) (metas ps0)).
  { unfold copy_attribs. destruct (attr_of src); [|exact Hself].
    rewrite attr_writes_end. unfold conc. cbn. now rewrite app_nil_r. }
  assert (Hok : conc ps0 t1
      (aruns
         (if hash_unchanged sha1 src (cur_meta ps0)
          then match attr_of src with Some a => attr_writes (mirror ps0) z a | None => [] end
          else inc_writes z (make_increment delta src (mirror ps0)) ++ replace_mirror z (mirror ps0) src)
         (mirror ps0, None)) =
    (let '(m, l, _) :=
       if hash_unchanged sha1 src (cur_meta ps0)
       then (copy_attribs src (mirror ps0), incs ps0, meta_of src)
       else (src, add_inc (Some t1) (make_increment delta src (mirror ps0)) (incs ps0), meta_of src) in
     mk_ps m l (metas ps0))).
  { destruct (hash_unchanged sha1 src (cur_meta ps0)); [exact Hun|apply (Hup src (meta_of src))]. }
  destruct o as [| | | |a|p|]; try exact Hok.
  - destruct (is_dir (mirror ps0) && negb (is_dir src)); exact Hself.
  - destruct src as [|c0 a0|a0|d0 a0]; [apply (Hup Absent None)|apply (Hup Absent None)|
      apply (Hup (Dir a0) None)|apply (Hup (Spec d0 a0) None)].
  - destruct src as [|c0 a0|a0|d0 a0]; [apply (Hup Absent None)|apply (Hup (Reg c0 a0) None)|
      apply (Hup (Dir a0) None)|apply (Hup (Reg [] a) None)].
  - destruct (hash_unchanged sha1 src (cur_meta ps0)); [exact Hun|].
    destruct p; [|exact Hself]. rewrite inc_writes_end. reflexivity.
  - destruct (hash_unchanged sha1 src (cur_meta ps0)); [exact Hun|].
    rewrite inc_writes_end. reflexivity.
Qed.

(** ** The regress *)
Lemma restore_fp_rec ps0 t1 t2 c m i :
  StronglySorted tlt (incs ps0) -> Forall (fun x => fst x < t1) (incs ps0) -> t1 < t2 ->
  chain [i] m = Some c ->
  restore_fp patch t1 t2 (conc ps0 t1 (m, Some i)) = ROk c.
Proof.
  intros Hs Hf Ht Hc. eapply restore_fp_ok with (ps := conc ps0 t1 (m, Some i)); auto.
  - unfold conc; cbn. now apply sorted_snoc.
  - unfold conc; cbn. apply Forall_app. split; [|repeat constructor; exact Ht].
    eapply Forall_impl; [|exact Hf]. cbn; lia.
  - unfold conc. cbn [incs mirror fst snd tail_of]. rewrite since_app, since_old by assumption.
    now rewrite Z.leb_refl.
Qed.

Lemma restore_fp_none ps0 t1 t2 c b :
  StronglySorted tlt (incs ps0) -> Forall (fun x => fst x < t1) (incs ps0) -> t1 < t2 ->
  restore_fp patch t1 t2 (conc ps0 t1 (Reg c b, None)) = ROk c.
Proof.
  intros Hs Hf Ht. eapply restore_fp_ok with (ps := conc ps0 t1 (Reg c b, None)); auto.
  - unfold conc; cbn. now rewrite app_nil_r.
  - unfold conc; cbn. rewrite app_nil_r. eapply Forall_impl; [|exact Hf]. cbn; lia.
  - unfold conc. cbn [incs mirror fst snd tail_of]. rewrite app_nil_r, since_old by assumption. reflexivity.
Qed.

Lemma hash_matches_ok a c' c : P c -> P c' -> hash_matches sha1 a c' (sha1 a c) = true -> c' = c /\ sha1 a c <> None.
Proof using sha1_inj.
  unfold hash_matches. intros Hc Hc' H. destruct (sha1 a c) as [h|] eqn:E1; [|discriminate].
  destruct (sha1 a c') as [h'|] eqn:E2; [|discriminate]. apply beq_bytes_true in H. subst h'.
  split; [eapply sha1_inj; eauto|discriminate].
Qed.

(** [m] is the file [v] describes, attributes as recorded or loosely equal *)
Definition restored_as (v m : node) : Prop :=
  match v with
  | Absent => m = Absent
  | Reg c a => exists b, m = Reg c b /\ (b = a \/ loose a b = true)
  | Dir a => exists b, m = Dir b /\ (b = a \/ loose a b = true)
  | Spec d a => exists b, m = Spec d b /\ (b = a \/ loose a b = true)
  end.

Lemma delete_end m ti : aruns (delete_mirror m) (m, ti) = (@Absent attr, ti).
Proof using. destruct m; reflexivity. Qed.

Lemma map_reg_end (z : noise attr) c m ti :
  snd (aruns (map (fun k => SetMirror (Reg (firstn k c) (n_fresh z))) (n_written z)) (m, ti)) = ti.
Proof using. revert m. induction (n_written z); intros; cbn; auto. Qed.

Lemma map_dir_end l m ti d :
  l <> [] -> aruns (map (fun x => @SetMirror attr (Dir x)) l) (m, ti) = (Dir (last l d), ti).
Proof using.
  revert m. induction l as [|x l IH]; intros m H; [congruence|]. cbn [map aruns arun snd].
  destruct l as [|y l]; [reflexivity|]. rewrite IH by discriminate. reflexivity.
Qed.

Lemma write_reg_keeps z c a b0 : P c ->
  keeps (RecI (Reg c a)) (write_reg z c a) (Absent, Some (ISnap (Reg c b0))).
Proof.
  intros HP. unfold write_reg.
  destruct (keeps_map (RecI (Reg c a)) (fun k => SetMirror (Reg (firstn k c) (n_fresh z))) (n_written z)
    (Absent, Some (ISnap (Reg c b0)))
    (fun s => snd s = Some (ISnap (Reg c b0)) /\ (fst s = Absent \/ exists k, fst s = Reg (firstn k c) (n_fresh z))))
    as [HQ1 _].
  - intros [x y] [Hy Hx]. cbn in Hx, Hy. subst y. apply rec_snap; [exact HP|]. destruct Hx as [->|[k ->]]; [exact I|].
    cbn. intros Hl. rewrite firstn_length in Hl. rewrite firstn_all2 by lia. auto.
  - cbn. auto.
  - intros k [x y] [Hy Hx]. cbn in *. split; [assumption|]. right. eauto.
  - apply keeps_app; [assumption|].
    pose proof (keeps_firstn _ _ _ (length (map (fun k => SetMirror (Reg (firstn k c) (n_fresh z))) (n_written z))) HQ1) as Hend.
    rewrite firstn_all in Hend. pose proof (map_reg_end z c Absent (Some (ISnap (Reg c b0)))) as Hy.
    destruct (aruns _ _) as [x y]. cbn [snd] in Hy. subst y. apply keeps_cons; [exact Hend|]. cbn [arun].
    assert (Hb : forall b, RecI (Reg c a) (Reg c b, Some (ISnap (Reg c b0)))) by (intros b; apply rec_snap; [exact HP|cbn; auto]).
    apply attr_writes_keeps; [apply Hb|]. intros. apply Hb.
Qed.

Lemma write_reg_end z c a s : fst (aruns (write_reg z c a) s) = Reg c a.
Proof. unfold write_reg. rewrite aruns_app. cbn [aruns]. now rewrite attr_writes_end. Qed.

(** From a recoverable state, a regress doesn't abort; all its intermediate
    states are recoverable; at the end the file is what [v] says and the
    increment of the failed session is gone. *)
Lemma regress_ok v ps0 t1 t2 z s :
  StronglySorted tlt (incs ps0) -> Forall (fun x => fst x < t1) (incs ps0) -> t1 < t2 ->
  RecI v s ->
  exists l, regress_prog t1 t2 (meta_of v) z (conc ps0 t1 s) = Some l /\
    keeps (RecI v) l s /\
    exists m', aruns l s = (m', None) /\ restored_as v m'.
Proof.
  intros Hs Hf Ht HR. destruct s as [m ti].
  assert (Hfin : forall l m', RecI v (m', None) ->
     keeps (RecI v) l (m, ti) -> fst (aruns l (m, ti)) = m' -> restored_as v m' ->
     exists l', Some (l ++ [DelInc]) = Some l' /\ keeps (RecI v) l' (m, ti) /\
       exists m', aruns l' (m, ti) = (m', None) /\ restored_as v m').
  { intros l m' HRm Hk He Hr. eexists. split; [reflexivity|]. split.
    - apply keeps_app; [assumption|]. destruct (aruns l (m, ti)) as [x y] eqn:E. cbn in He. subst x.
      split; [|split; [exact HRm|exact I]].
      pose proof (keeps_firstn _ _ _ (length l) Hk) as H. rewrite firstn_all, E in H. exact H.
    - exists m'. rewrite aruns_app. cbn. destruct (aruns l (m, ti)). cbn in *. now subst. }
  unfold M_Crash.regress_prog. cbn [mirror conc fst].
  destruct v as [|c a|a|d a]; cbn [M_Core.meta_of].
  - apply (Hfin _ Absent); try exact I; [apply keeps_true; intros; exact I|..].
    + now rewrite delete_end.
    + reflexivity.
  - destruct HR as (HP & Hsh & Hrec). cbn [fst snd] in Hsh, Hrec. cbn [loose_eq].
    assert (Hk0 : RecI (Reg c a) (m, ti)) by (split; [assumption|split; assumption]).
    destruct m as [|c' b|b|d b].
    + destruct Hrec as [(a' & Ha & _)|(i & Hi & Hc)]; [discriminate|]. cbn [snd] in Hi. subst ti.
      rewrite (restore_fp_rec _ _ _ c) by assumption.
      destruct i as [| |n|dd]; try discriminate. cbn in Hc. destruct n as [|c0 b0| |]; try discriminate.
      injection Hc as ->.
      apply (Hfin _ (Reg c a)); [apply rec_old; [exact HP|eauto]| | |cbn; eauto].
      * cbn [delete_mirror app].
        apply write_reg_keeps; exact HP.
      * cbn [delete_mirror app aruns]. apply write_reg_end.
    + destruct (Nat.eqb (length c') (length c) && loose a b) eqn:El.
      { apply andb_true_iff in El as [El1 El2]. apply Nat.eqb_eq in El1.
        destruct (Hsh c' b eq_refl El1) as [_ Hsh']. specialize (Hsh' El2). subst c'.
        apply (Hfin [] (Reg c b)); [apply rec_old; [exact HP|eauto]|now apply keeps_nil|reflexivity|cbn; eauto]. }
      destruct (Nat.eqb (length c') (length c) && hash_matches sha1 a c' (sha1 a c)) eqn:Eh.
      { apply andb_true_iff in Eh as [El1 Eh]. apply Nat.eqb_eq in El1. apply hash_matches_ok in Eh as [Eh Hn]; [|exact HP|now apply (Hsh c' b eq_refl El1)]. subst c'.
        apply (Hfin _ (Reg c a)); [apply rec_old; [exact HP|eauto]| | |cbn; eauto].
        - apply attr_writes_keeps; [assumption|]. intros. apply rec_old; [exact HP|congruence].
        - now rewrite attr_writes_end. }
      destruct Hrec as [[a' Ha]|(i & Hi & Hc)].
      { destruct Ha as [Ha Hu]. injection Ha as -> ->. rewrite Nat.eqb_refl in El, Eh. cbn [andb] in El, Eh.
        assert (Hn : sha1 a c = None).
        { destruct (sha1 a c) as [h|] eqn:Eq; [|reflexivity]. unfold hash_matches in Eh. rewrite Eq in Eh.
          unfold beq_bytes in Eh. now destruct (list_eq_dec ascii_dec h h). }
        destruct (Hu Hn) as [Hl|Hl]; [congruence|]. cbn [snd] in Hl. subst ti.
        rewrite (restore_fp_none _ _ _ c) by assumption.
        apply (Hfin _ (Reg c a)); [apply rec_old; [exact HP|eauto]| |reflexivity|cbn; eauto].
        split; [assumption|]. split; [apply rec_old; [exact HP|eauto]|exact I]. }
      subst ti.
      rewrite (restore_fp_rec _ _ _ c) by assumption.
      apply (Hfin _ (Reg c a)); [apply rec_old; [exact HP|eauto]| |reflexivity|cbn; eauto].
      split; [assumption|]. split; [apply rec_old; [exact HP|eauto]|exact I].
    + destruct Hrec as [(a' & Ha & _)|(i & Hi & Hc)]; [discriminate|]. cbn [snd] in Hi. subst ti.
      rewrite (restore_fp_rec _ _ _ c) by assumption.
      destruct i as [| |n|dd]; try discriminate. cbn in Hc. destruct n as [|c0 b0| |]; try discriminate.
      injection Hc as ->.
      apply (Hfin _ (Reg c a)); [apply rec_old; [exact HP|eauto]| | |cbn; eauto].
      * cbn [delete_mirror app]. apply keeps_cons; [assumption|]. cbn [arun snd].
        apply write_reg_keeps; exact HP.
      * cbn [delete_mirror app aruns]. apply write_reg_end.
    + destruct Hrec as [(a' & Ha & _)|(i & Hi & Hc)]; [discriminate|]. cbn [snd] in Hi. subst ti.
      rewrite (restore_fp_rec _ _ _ c) by assumption.
      destruct i as [| |n|dd]; try discriminate. cbn in Hc. destruct n as [|c0 b0| |]; try discriminate.
      injection Hc as ->.
      apply (Hfin _ (Reg c a)); [apply rec_old; [exact HP|eauto]| | |cbn; eauto].
      * cbn [delete_mirror app]. apply keeps_cons; [assumption|]. cbn [arun snd].
        apply write_reg_keeps; exact HP.
      * cbn [delete_mirror app aruns]. apply write_reg_end.
  - set (d0 := match m with Dir b => b | _ => n_fresh z end).
    set (start := (if is_dir m then [] else delete_mirror m ++ [SetMirror (Dir (n_fresh z))])).
    assert (Hst : aruns start (m, ti) = (Dir d0, ti)).
    { subst start d0. destruct m; cbn; reflexivity. }
    assert (Hmid : aruns (start ++ map (fun x => SetMirror (Dir x)) (n_attrs z)) (m, ti) = (Dir (last_attr z d0), ti)).
    { rewrite aruns_app, Hst. unfold last_attr. destruct (n_attrs z) as [|x l] eqn:E; [reflexivity|].
      rewrite map_dir_end with (d := d0) by discriminate. reflexivity. }
    rewrite app_assoc.
    apply (Hfin _ (if loose a (last_attr z d0) then Dir (last_attr z d0) else Dir a)); try exact I.
    + apply keeps_true; intros; exact I.
    + rewrite aruns_app, Hmid. now destruct (loose a (last_attr z d0)).
    + destruct (loose a (last_attr z d0)) eqn:E; cbn; eauto.
  - cbn [loose_eq].
    destruct m as [|c' b|b|d' b].
    4:{ destruct (beq_bytes d d' && loose a b) eqn:E.
        - apply andb_true_iff in E as [E1 E2]. apply beq_bytes_true in E1. subst d'.
          apply (Hfin [] (Spec d b)); try exact I; [apply keeps_true; intros; exact I|reflexivity|cbn; eauto].
        - apply (Hfin _ (Spec d a)); try exact I; [apply keeps_true; intros; exact I| |cbn; eauto].
          rewrite aruns_app. cbn [aruns]. rewrite attr_writes_end. reflexivity. }
    all: apply (Hfin _ (Spec d a)); try exact I;
      [apply keeps_true; intros; exact I| |cbn; eauto];
      rewrite aruns_app; cbn [aruns]; rewrite attr_writes_end; reflexivity.
Qed.

Notation regress_attempts := (regress_attempts patch sha1 loose).

Lemma attempts_ok v ps0 t1 t2 att zl : forall s,
  StronglySorted tlt (incs ps0) -> Forall (fun x => fst x < t1) (incs ps0) -> t1 < t2 ->
  RecI v s ->
  exists m', regress_attempts t1 t2 (meta_of v) att zl (conc ps0 t1 s) =
               Some (mk_ps m' (incs ps0) (metas ps0)) /\ restored_as v m'.
Proof.
  induction att as [|[z k] att IH]; intros s Hs Hf Ht HR; cbn [M_Crash.regress_attempts].
  - destruct (regress_ok v ps0 t1 t2 zl s Hs Hf Ht HR) as (l & -> & _ & m' & E & Hr).
    exists m'. rewrite run_pops_conc, E by assumption. unfold conc. cbn. now rewrite app_nil_r.
  - destruct (regress_ok v ps0 t1 t2 z s Hs Hf Ht HR) as (l & -> & Hk & _).
    unfold crash. rewrite run_pops_conc by assumption. apply IH; auto.
    now apply keeps_firstn.
Qed.

(** ** Histories with crashes *)
Notation run_event := (run_event delta patch sha1 same loose).
Notation run_events := (run_events delta patch sha1 same loose).
Notation event := (@event attr).

Definition ev_time (e : event) : Z :=
  match e with EvSession t _ _ => t | EvCrash t _ _ _ _ _ _ => t end.
Definition ev_src (e : event) : node :=
  match e with EvSession _ s _ => s | EvCrash _ s _ _ _ _ _ => s end.

(** no fallback for special files *)
Definition strict (recs : list (Z * node)) (ps : @pstate attr) : Prop :=
  match recs with
  | (_, Spec _ _) :: _ => is_reg (mirror ps) = false
  | _ => True
  end.

Definition head_of (recs : list (Z * node)) : node :=
  match recs with (_, v) :: _ => v | [] => Absent end.

(** recorded states of a history with crashes *)
Fixpoint ev_recall (recs : list (Z * node)) (l : list event) :=
  match l with
  | [] => recs
  | EvSession t s o :: l' => ev_recall ((t, recorded sha1 same (head_of recs) s o) :: recs) l'
  | EvCrash _ _ _ _ _ _ _ :: l' => ev_recall recs l'
  end.

Definition ev_good (e : event) : Prop :=
  match e with
  | EvSession _ _ o => good o /\ forall a, o <> OSpecialFail a
  | EvCrash _ _ _ _ _ _ _ => True
  end.

Lemma restored_holds v m : restored_as v m -> holds v m.
Proof. destruct v; cbn; auto; intros (b & -> & _); eauto. Qed.

Lemma inv_mirror recs ps m :
  Inv patch sha1 P recs ps -> recs <> [] -> strict recs ps -> restored_as (head_of recs) m ->
  Inv patch sha1 P recs (mk_ps m (incs ps) (metas ps)).
Proof.
  intros [IM IT IS IO IH IC IP IQ] Hne Hst Hr. constructor; cbn [incs mirror metas]; auto.
  - destruct recs as [|[t v] r]; [congruence|]. now apply restored_holds.
  - intros t c a Hin. rewrite <- (IC t c a Hin).
    assert (Hc : chain [] m = chain [] (mirror ps)).
    { destruct recs as [|[t0 v] r]; [congruence|]. cbn in Hr, Hst, IH |- *.
      destruct v; cbn in *.
      - subst. now rewrite IH.
      - destruct Hr as (b & -> & _). destruct IH as [b' ->]. reflexivity.
      - destruct Hr as (b & -> & _). destruct IH as [b' ->]. reflexivity.
      - destruct Hr as (b & -> & _). destruct IH as [[b' ->]|[b' E]]; [reflexivity|].
        rewrite E in Hst. discriminate. }
    generalize (since t (incs ps)) as L. intros L. induction L as [|i L IHL]; [exact Hc|].
    cbn [L_Core.chain]. destruct i; try reflexivity. now rewrite IHL.
  - destruct recs as [|[t v] r]; [congruence|]. inversion IQ; subst. eapply holds_okn; [exact occ_nil|eassumption|]. now apply restored_holds.
Qed.

Lemma strict_session recs ps t s o :
  Inv patch sha1 P recs ps -> strict recs ps -> good o -> (forall a, o <> OSpecialFail a) ->
  strict ((t, recorded sha1 same (head_of recs) s o) :: recs) (session delta sha1 same t s o ps).
Proof.
  intros HI Hst Hg Ho. pose proof HI as [IM IT IS IO IH IC IP IQ].
  assert (Hcm : cur_meta ps = meta_of (head_of recs)).
  { unfold cur_meta. rewrite IM. destruct recs as [|[t0 v0] r]; reflexivity. }
  unfold strict, M_Core.session, update. rewrite Hcm. unfold recorded.
  fold (head_of recs) in IH.
  assert (Hst' : match head_of recs with Spec _ _ => is_reg (mirror ps) = false | _ => True end).
  { destruct recs as [|[t0 v0] r]; exact Hst. }
  destruct (meta_same same s (meta_of (head_of recs))) eqn:E.
  { destruct o, s; cbn [mirror]; try exact Hst'. cbn in E. destruct (head_of recs); try discriminate; exact I. }
  destruct o; try (destruct Hg; fail); try (exfalso; eapply Ho; reflexivity).
  - destruct s; try exact I. destruct (head_of recs); reflexivity.
  - destruct s; try exact I. destruct (head_of recs); reflexivity.
  - exact Hst'.
  - destruct s; try exact I. reflexivity.
Qed.

Definition ev_shows (v : node) (e : event) : Prop :=
  match e with EvCrash _ s _ _ _ _ _ => shows v s | _ => True end.

Lemma events_ok l : (forall a c, sha1 a c <> None) -> forall recs ps,
  Inv patch sha1 P recs ps -> strict recs ps -> recs <> [] ->
  Forall ev_good l -> Forall (fun e => okn (ev_src e)) l ->
  StronglySorted (fun x y => ev_time x < ev_time y) l ->
  (forall e, In e l -> match recs with (t, _) :: _ => t < ev_time e | [] => True end) ->
  (forall e e', In e l -> In e' l -> shows (ev_src e) (ev_src e')) ->
  (forall e, In e l -> shows (head_of recs) (ev_src e)) ->
  exists ps', run_events l ps = Some ps' /\ Inv patch sha1 P (ev_recall recs l) ps'.
Proof.
  intros Hkn. induction l as [|e l IH]; intros recs ps HI Hst Hne Hg Hk Hs Ht Hsh Hsh0; cbn [M_Crash.run_events ev_recall]; [eauto|].
  inversion Hg as [|? ? H1 H2]; subst. inversion Hs as [|? ? H3 H4]; subst. inversion Hk as [|? ? Hk1 Hk2]; subst.
  destruct e as [t s o|t s o z k att zl]; cbn [M_Crash.run_event].
  - destruct H1 as [Hgo Hno]. apply IH; auto.
    + apply inv_session; auto. exact (Ht _ (or_introl eq_refl)).
    + apply strict_session; auto.
    + discriminate.
    + intros e He. rewrite Forall_forall in H4. exact (H4 _ He).
    + intros e e' He He'. apply Hsh; now right.
    + intros e He. cbn [head_of]. unfold recorded.
      pose proof (Hsh0 e (or_intror He)) as Hv.
      pose proof (Hsh (EvSession t s o) e (or_introl eq_refl) (or_intror He)) as Hse. cbn in Hse.
      destruct (meta_same same s (meta_of (head_of recs))); [destruct o, s; assumption|].
      destruct o; try assumption. destruct s; try assumption.
  - destruct recs as [|[t1 v] r]; [congruence|]. pose proof HI as [IM IT IS IO IH' IC IP IQ].
    assert (Hlt : last_time ps = Some t1) by (unfold last_time; rewrite IM; reflexivity).
    assert (Hcm : cur_meta ps = meta_of v) by (unfold cur_meta; rewrite IM; reflexivity).
    rewrite Hlt, Hcm.
    pose proof (Ht _ (or_introl eq_refl)) as Ht1. cbn in Ht1.
    pose proof (session_keeps s o z v ps (Forall_inv IQ) Hk1 IH' (hashed_known v (mirror ps) Hkn) Hcm (Hsh0 _ (or_introl eq_refl))) as Hkk.
    unfold crash.
    replace (run_pops t1 (firstn k (session_prog s o z ps)) ps) with
      (conc ps t1 (aruns (firstn k (session_prog s o z ps)) (mirror ps, None)))
      by (rewrite <- run_pops_conc, conc_self by assumption; reflexivity).
    destruct (attempts_ok v ps t1 t att zl _ IS IO Ht1 (keeps_firstn _ _ _ k Hkk)) as (m' & -> & Hr).
    apply IH; auto.
    + now apply inv_mirror.
    + unfold strict. destruct v; auto. cbn in Hr. destruct Hr as (b & -> & _). reflexivity.
    + intros e He. exact (Ht e (or_intror He)).
    + intros e e' He He'. apply Hsh; now right.
    + intros e He. exact (Hsh0 e (or_intror He)).
Qed.

End S.

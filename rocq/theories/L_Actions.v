(** * Reasoning about the commands (M_Actions) *)
From Coq Require Import List NArith ZArith Bool Lia.
From Verif Require Import Base M_Actions S_Actions.
Import ListNotations.
Local Open Scope N_scope.

Lemma is_err_bit c : is_err c = N.testbit c 0.
Proof.
  unfold is_err, ERR. change 1 with (N.ones 1) at 1. rewrite N.land_ones.
  rewrite <- N.bit0_mod. destruct (N.testbit c 0); reflexivity.
Qed.
Lemma is_err_lor a b : is_err (N.lor a b) = is_err a || is_err b.
Proof. rewrite !is_err_bit. apply N.lor_spec. Qed.

Section A.
Variable disk : Type.
Variable E : env disk.
Variable o : opts.
Notation st := (st disk).
Notation M := (M disk).
Notation replay := (replay disk E).

Definition run_to (s : st) (l : list op) (s' : st) : Prop :=
  s_ops s' = s_ops s ++ l /\ s_disk s' = replay (s_ops s) l (s_disk s).

Lemma replay_app l1 : forall done l2 d, replay done (l1 ++ l2) d = replay (done ++ l1) l2 (replay done l1 d).
Proof.
  induction l1 as [|p l1 IH]; intros done l2 d; cbn [app S_Actions.replay].
  - now rewrite app_nil_r.
  - rewrite IH. now rewrite <- app_assoc.
Qed.
Lemma run_to_nil s : run_to s [] s.
Proof. split; [now rewrite app_nil_r|reflexivity]. Qed.
Lemma run_to_app s l1 s1 l2 s2 : run_to s l1 s1 -> run_to s1 l2 s2 -> run_to s (l1 ++ l2) s2.
Proof.
  intros [A B] [C D]. split.
  - now rewrite C, A, app_assoc.
  - rewrite replay_app, D, A, B. reflexivity.
Qed.

(** the program [m] started in [s] ends with operations, state and outcome as in [Q] *)
Definition wp {A} (m : M A) (Q : list op -> st -> out A -> Prop) (s : st) : Prop :=
  exists l, run_to s l (fst (m s)) /\ Q l (fst (m s)) (snd (m s)).

Lemma wp_mono {A} (m : M A) (Q R : list op -> st -> out A -> Prop) s :
  wp m Q s -> (forall l s' x, run_to s l s' -> Q l s' x -> R l s' x) -> wp m R s.
Proof. intros (l & H & K) I. exists l; auto. Qed.

Lemma wp_ret {A} (a : A) (Q : list op -> st -> out _ -> Prop) s : Q [] s (Val a) -> wp (ret _ a) Q s.
Proof. intros H. exists []. split; [apply run_to_nil|exact H]. Qed.
Lemma wp_stop {A} (x : out A) (Q : list op -> st -> out _ -> Prop) s : Q [] s x -> wp (stop _ x) Q s.
Proof. intros H. exists []. split; [apply run_to_nil|exact H]. Qed.
Lemma wp_look {A} (f : view -> A) (Q : list op -> st -> out _ -> Prop) s : Q [] s (Val (f (e_view _ E (s_disk s)))) -> wp (look _ E f) Q s.
Proof. intros H. exists []. split; [apply run_to_nil|exact H]. Qed.
Lemma wp_ask {A} (f : list op -> disk -> out A) (Q : list op -> st -> out _ -> Prop) s : Q [] s (f (s_ops s) (s_disk s)) -> wp (ask _ f) Q s.
Proof. intros H. exists []. split; [apply run_to_nil|exact H]. Qed.
Lemma wp_act p (Q : list op -> st -> out N -> Prop) s :
  Q [p] (mk_st (fst (e_eff _ E (s_ops s) p (s_disk s))) (s_ops s ++ [p]) (s_lock s))
    (snd (e_eff _ E (s_ops s) p (s_disk s))) -> wp (act _ E p) Q s.
Proof.
  intros H. exists [p]. unfold act. destruct (e_eff _ E (s_ops s) p (s_disk s)) as [d x] eqn:Ee.
  cbn [fst snd] in *. split; [|exact H].
  split; cbn [s_ops s_disk S_Actions.replay]; [reflexivity|now rewrite Ee].
Qed.

Lemma wp_bind {A B} (m : M A) (k : A -> M B) (Q : list op -> st -> out _ -> Prop) s :
  wp m (fun l s' x =>
          match x with
          | Val a => wp (k a) (fun l' s'' y => Q (l ++ l') s'' y) s'
          | Exc b => Q l s' (Exc b)
          | Quit => Q l s' Quit
          | Killed => Q l s' Killed
          end) s -> wp (bind _ m k) Q s.
Proof.
  intros (l & H & K). unfold wp, bind. destruct (m s) as [s' x]. cbn [fst snd] in *.
  destruct x as [a|b| |]; try (exists l; split; assumption).
  destruct K as (l' & H' & K'). exists (l ++ l'). split; [eapply run_to_app; eassumption|exact K'].
Qed.

Lemma wp_caught (m : M N) (Q : list op -> st -> out bool -> Prop) s :
  wp m (fun l s' x =>
          match x with
          | Val _ => Q l s' (Val true)
          | Exc true => Q l s' (Val false)
          | Exc false => Q l s' (Exc false)
          | Quit => Q l s' Quit
          | Killed => Q l s' Killed
          end) s -> wp (caught _ m) Q s.
Proof.
  intros (l & H & K). exists l. unfold caught. destruct (m s) as [s' x]. cbn [fst snd] in *.
  destruct x as [a|[]| |]; auto.
Qed.

(** only operations of some kind *)
Definition within {A} (P : op -> Prop) (m : M A) : Prop := forall s, wp m (fun l _ _ => Forall P l) s.

Lemma within_mono {A} (P Q : op -> Prop) (m : M A) : (forall p, P p -> Q p) -> within P m -> within Q m.
Proof. intros H K s. eapply wp_mono; [apply K|]. cbn. intros l _ _ _ F. eapply Forall_impl; [apply H|exact F]. Qed.
Lemma within_ret {A} P (a : A) : within P (ret _ a).
Proof. intros s. apply wp_ret. constructor. Qed.
Lemma within_stop {A} P (x : out A) : within P (stop _ x).
Proof. intros s. apply wp_stop. constructor. Qed.
Lemma within_look {A} P (f : view -> A) : within P (look _ E f).
Proof. intros s. apply wp_look. constructor. Qed.
Lemma within_ask {A} P (f : list op -> disk -> out A) : within P (ask _ f).
Proof. intros s. apply wp_ask. constructor. Qed.
Lemma within_act (P : op -> Prop) p : P p -> within P (act _ E p).
Proof. intros H s. apply wp_act. repeat constructor. exact H. Qed.
Lemma within_bind {A B} P (m : M A) (k : A -> M B) : within P m -> (forall a, within P (k a)) -> within P (bind _ m k).
Proof.
  intros H K s. apply wp_bind. eapply wp_mono; [apply H|]. cbn. intros l s' x _ F.
  destruct x as [a|b| |]; auto. eapply wp_mono; [apply K|]. cbn. intros. apply Forall_app; auto.
Qed.
Lemma within_caught P m : within P m -> within P (caught _ m).
Proof.
  intros H s. apply wp_caught. eapply wp_mono; [apply H|]. cbn. intros l s' x _ F. destruct x as [a|[]| |]; auto.
Qed.
Lemma within_when P b m : (b = true -> within P m) -> within P (when _ b m).
Proof. unfold when. destruct b; auto using within_ret. Qed.
Lemma within_unless P c m : (is_err c = false -> within P m) -> within P (unless_err _ c m).
Proof. unfold unless_err. destruct (is_err c); auto using within_ret. Qed.
Lemma within_lock (P : op -> Prop) w : (w = true -> P OpLock) -> within P (lock _ E w).
Proof.
  intros H. unfold lock. apply within_bind.
  - destruct w; [apply within_act; auto|apply within_ret].
  - intros _ s. exists []. split; [|constructor]. split; cbn; [now rewrite app_nil_r|reflexivity].
Qed.
Lemma within_compare (P : op -> Prop) : P OpSetQuote -> within P (compare_quoting _ E o).
Proof.
  intros H s. pose proof (within_act P OpSetQuote H s) as W. unfold wp, compare_quoting in *. cbv zeta.
  destruct (v_quote (e_view _ E (s_disk s))) as [q|]; [|exact W].
  exists []. destruct (beq _ _); (split; [apply run_to_nil|constructor]).
Qed.

Ltac win :=
  repeat first
    [ simple apply within_ret | simple apply within_stop | simple apply within_look | simple apply within_ask
    | simple apply within_caught | (simple apply within_when; intros ?) | (simple apply within_unless; intros ?)
    | (simple apply within_bind; [|intros ?]) ].

Lemma within_create_base (P : op -> Prop) l : (o_force o = true -> P (OpDelete l)) -> P (OpMkdir l) ->
  within P (create_base _ E o l).
Proof using.
  intros H K. unfold create_base. win; try (now apply within_act).
  destruct a; try discriminate. now apply within_act; auto.
Qed.
Lemma within_create_repo (P : op -> Prop) : (o_force o = true -> P (OpDelete LRepo)) -> P (OpMkdir LRepo) ->
  P OpCleanFailed -> P OpMkData -> P OpMkIncs -> within P (create_repo _ E o).
Proof using.
  intros. unfold create_repo. win; [now apply within_create_base|].
  destruct (negb a); win. destruct (a0 && a1 && negb (o_force o)); win.
  - now apply within_act.
  - destruct a3; win. now apply within_act.
  - destruct (negb a4); win. destruct a5; win. now apply within_act.
Qed.
Lemma within_abilities (P : op -> Prop) l w : (w = true -> P (OpTestFs l)) -> within P (abilities _ E l w).
Proof using. intros H. unfold abilities. destruct w; win. apply within_act; auto. Qed.
Lemma within_shadow_setup (P : op -> Prop) a :
  (mw a = true -> (o_force o = true -> P (OpDelete LRepo)) /\ P (OpMkdir LRepo) /\ P OpCleanFailed /\
     P OpMkData /\ P OpMkIncs /\ P OpLock) -> within P (shadow_setup _ E o a).
Proof using.
  intros H. unfold shadow_setup. win.
  - destruct (mw a); win. now apply within_create_repo; apply H.
  - destruct (negb a0); win. destruct a1; win.
    + apply within_lock. intros e. apply H, e.
    + destruct a1 as [[]|]; win. destruct (o_force o); win.
Qed.
Lemma within_repo_setup (P : op -> Prop) a two :
  (mw a = true -> (o_force o = true -> P (OpDelete LRepo)) /\ P (OpMkdir LRepo) /\ P OpCleanFailed /\
     P OpMkData /\ P OpMkIncs /\ P OpLock /\ P (OpTestFs LRepo) /\ P OpOpenLogs) ->
  (two = true -> P OpSetQuote /\ P OpSetEscapes) -> within P (repo_setup _ E o a two).
Proof using.
  intros H K. unfold repo_setup. win.
  - apply within_shadow_setup. intros e. specialize (H e). intuition.
  - apply within_abilities. intros e. apply H, e.
  - destruct (negb a1); win.
    + destruct two; win; [now apply within_compare, K|].
      unfold set_escapes. win. destruct a4; win. now apply within_act, K.
    + apply within_act. apply andb_prop in H2. apply H, H2.
Qed.
Lemma within_write_dir (P : op -> Prop) : (o_force o = true -> P (OpDelete LDir)) -> P (OpMkdir LDir) ->
  P (OpTestFs LDir) -> within P (write_dir_setup _ E o).
Proof using.
  intros. unfold write_dir_setup. win; [now apply within_create_base|].
  destruct (negb a); win; [now apply within_abilities|]. destruct (negb a1); win.
Qed.
End A.

Ltac win :=
  repeat first
    [ simple apply within_ret | simple apply within_stop | simple apply within_look | simple apply within_ask
    | simple apply within_caught | (simple apply within_when; intros ?) | (simple apply within_unless; intros ?)
    | (simple apply within_bind; [|intros ?]) ].

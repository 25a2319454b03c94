(** * C57: a backup at a time which isn't later than the last one *)
From Coq Require Import List NArith ZArith Bool Lia.
From Verif Require Import Base M_Actions S_Actions L_Actions P_Actions P_Order P_ActionsEx.
Import ListNotations.
Local Open Scope N_scope.

(** an existing repository with at least one finished session *)
Definition established (v : view) : Prop :=
  v_kind v LRepo = KDir /\ v_data v = KDir /\ v_incs v = true /\ v_nomarker v = false.

(** The clock stands at or before the time of the last session: the backup fails, without having
    changed anything (and without having taken the lock). *)
Theorem C57_clock_behind : forall disk (E : env disk) o d,
  established (e_view _ E d) -> (o_now o <= v_mtime (e_view _ E d))%Z ->
  fst (command disk E o Backup d) = mk_st d [] false /\ failed (snd (command disk E o Backup d)).
Proof.
  intros disk E o d (K & D & I & N) T.
  destruct (main_parts E o Backup d) as [H|(c & Hc & H)]; [exact H|]. rewrite H. unfold leave, work.
  assert (L : (o_now o <=? v_mtime (e_view _ E d))%Z = true) by (apply Z.leb_le; exact T).
  assert (R : repo_setup disk E o Backup true (mk_st d [] false) = (mk_st d [] false, Val ERR)).
  { unfold repo_setup, shadow_setup, create_repo, create_base, caught, when, look, bind, ret. cbn [mw check_time s_disk andb].
    do 8 (rewrite ?K, ?D, ?N, ?I, ?L; cbn [negb andb s_disk]). reflexivity. }
  assert (W : bind disk (setup disk E o Backup) (fun g =>
      unless_err disk (N.lor c g) (bind disk (run disk E o Backup) (fun g' => ret disk (N.lor (N.lor c g) g')))) (mk_st d [] false)
    = (mk_st d [] false, match e_abil disk E LDir d with Val _ => Val (N.lor c ERR) | Exc b => Exc b | Quit => Quit | Killed => Killed end)).
  { unfold bind at 1, setup, bind at 1, read_dir_setup, abilities, bind at 1, ask. cbn [s_disk].
    assert (X : unless_err disk (N.lor c ERR) (bind disk (run disk E o Backup) (fun g' => ret disk (N.lor (N.lor c ERR) g'))) (mk_st d [] false)
       = (mk_st d [] false, Val (N.lor c ERR))).
    { unfold unless_err. rewrite is_err_lor. replace (is_err ERR) with true by reflexivity. rewrite orb_true_r. reflexivity. }
    destruct (e_abil disk E LDir d) as [[]|b| |]; try reflexivity; unfold ret at 1.
    - unfold unless_err at 1. replace (is_err OK) with false by reflexivity. unfold bind at 1. rewrite R.
      unfold unless_err at 1. replace (is_err ERR) with true by reflexivity. unfold ret at 1. exact X.
    - unfold unless_err at 1. replace (is_err ERR) with true by reflexivity. unfold ret at 1. exact X. }
  rewrite W.
  destruct (e_abil disk E LDir d) as [ab|b| |]; cbn; (split; [reflexivity|]).
  - apply failed_val. rewrite is_err_lor. replace (is_err ERR) with true by reflexivity. apply orb_true_r.
  - intros c' [= <-]. reflexivity.
  - intros c' [= <-]. reflexivity.
  - intros c' X. discriminate X.
Qed.

(** the clock was set back to the second of the last session *)
Example clock_ex : established (e_view _ good (repo_at [now])) /\ (o_now plain <= v_mtime (e_view _ good (repo_at [now])))%Z /\
  status (snd (command world good plain Backup (repo_at [now]))) = Some ERR.
Proof. repeat split. discriminate. Qed.

Print Assumptions C57_clock_behind.

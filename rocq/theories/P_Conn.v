(** * C22, C23: messages and remote calls *)
From Coq Require Import List NArith Bool Lia Permutation.
From Verif Require Import Base L_Base M_Conn S_Conn L_Conn.
Import List ListNotations.
Local Open Scope N_scope.

(** ** C22 *)

(** What can be sent: the request number fits in a byte, the data in 2^56 bytes. *)
Definition sendable {Ob} (pickle : Ob -> bytes) (x : N * wobj) : Prop :=
  fst x < 256 /\
  N.of_nat (length match snd x with
                   | WObj o | WRor o | WRp _ o => pickle o
                   | WBuf b => b
                   | WFile i | WIter i | WConn i => i2b i
                   end) < 256 ^ 7.

(** Any sequence of objects is read back as the same sequence, whatever follows. *)
Theorem C22_messages_round_trip :
  forall (Ob : Type) (pickle : Ob -> bytes) unpickle, (forall o, unpickle (pickle o) = Some o) ->
  forall l, (forall x, In x l -> sendable pickle x) ->
  exists b, put_all pickle l = Some b /\
    forall rest, get_n unpickle (length l) (b ++ rest) = (l, get unpickle rest).
Proof.
  intros Ob pickle unpickle Hp l Hl.
  assert (exists b, put_all pickle l = Some b) as [b Hb].
  { induction l as [|x l IH]; cbn; [eauto|]. destruct IH as [b' ->]; [intros; apply Hl; now right|].
    assert (exists a, put pickle x = Some a) as [a ->]; [|eauto].
    destruct (Hl x (or_introl eq_refl)) as [H1 H2]. unfold put, write_msg, i2b_sized.
    change (256 ^ N.of_nat 1) with 256. change (N.of_nat 7) with 7.
    destruct x as [n w]. cbn [fst snd] in *.
    destruct w; cbn [obj_msg m_req m_data];
      (destruct (N.ltb_spec n 256); [|lia]);
      match goal with |- context [N.of_nat ?X <? ?Y] => destruct (N.ltb_spec (N.of_nat X) Y) end;
      try eauto; exfalso; apply N.lt_nge in H2; auto. }
  exists b. split; [assumption|]. intros rest. now apply (get_n_put pickle unpickle Hp).
Qed.

(** What can't be sent is refused, not sent wrongly. *)
Theorem C22_unsendable_refused :
  forall (Ob : Type) (pickle : Ob -> bytes) x b, put pickle x = Some b -> sendable pickle x.
Proof.
  intros Ob pickle [n w] b H. unfold put in H. apply write_some in H as (_ & H1 & H2).
  unfold sendable. destruct w; cbn in *; auto.
Qed.

(** Different sequences of objects have different byte streams. *)
Theorem C22_streams_unambiguous :
  forall (Ob : Type) (pickle : Ob -> bytes) unpickle, (forall o, unpickle (pickle o) = Some o) ->
  forall l1 l2 b1 b2 r1 r2, put_all pickle l1 = Some b1 -> put_all pickle l2 = Some b2 ->
  length l1 = length l2 -> b1 ++ r1 = b2 ++ r2 -> l1 = l2 /\ r1 = r2.
Proof.
  intros Ob pickle unpickle Hp l1 l2 b1 b2 r1 r2 H1 H2 HL E.
  pose proof (get_n_put pickle unpickle Hp l1 b1 r1 H1) as G1.
  pose proof (get_n_put pickle unpickle Hp l2 b2 r2 H2) as G2.
  rewrite E, HL in G1. rewrite G1 in G2. injection G2 as -> _. split; [reflexivity|].
  rewrite H1 in H2. injection H2 as ->. now apply app_inv_head in E.
Qed.

(** A connection that breaks between two messages or within the header of a message
    is noticed; the messages before are delivered. *)
Theorem C22_broken_header_detected :
  forall (Ob : Type) (pickle : Ob -> bytes) unpickle, (forall o, unpickle (pickle o) = Some o) ->
  forall l1 x l2 b1 bx b2 k n, put_all pickle l1 = Some b1 -> put pickle x = Some bx ->
  put_all pickle l2 = Some b2 -> (k < 9)%nat -> n = length (l1 ++ x :: l2) ->
  get_n unpickle n (firstn (length b1 + k) (b1 ++ bx ++ b2)) = (l1, GTrunc).
Proof.
  intros Ob pickle unpickle Hp l1 x l2 b1 bx b2 k n H1 Hx H2 Hk ->.
  rewrite firstn_app_2.
  assert (Hs : get unpickle (firstn k (bx ++ b2)) = GTrunc) by (apply short_header; rewrite firstn_length; lia).
  revert Hs. generalize (firstn k (bx ++ b2)) as r. clear - Hp H1. revert b1 H1.
  induction l1 as [|y l1 IH]; intros b1 H1 r Hr; cbn in H1.
  - injection H1 as <-. cbn [app length get_n]. now rewrite Hr.
  - destruct (put pickle y) as [a|] eqn:E; [|discriminate]. destruct (put_all pickle l1) as [b'|] eqn:E'; [|discriminate].
    injection H1 as <-. cbn [app length get_n]. rewrite <- app_assoc, (get_put pickle unpickle Hp y a _ E).
    now rewrite (IH b' eq_refl r Hr).
Qed.

(** *** Where the code falls short: a break within the data of a message isn't
    noticed; a shorter block is delivered in place of the one sent. *)
Theorem C22_broken_data_refuted :
  exists (x : N * @wobj bytes) b k y, put (fun s => s) x = Some b /\ (k < length b)%nat /\
    get Some (firstn k b) = GMsg y [] /\ y <> x.
Proof.
  exists (3, WBuf (bs "abcdef")). eexists. exists 12%nat, (3, WBuf (bs "abc")).
  split; [vm_compute; reflexivity|]. split; [cbn; lia|]. split; [vm_compute; reflexivity|]. discriminate.
Qed.

(** ** C23 *)

(** [value p]: the result if every call were made locally.  [nesting n p]: the
    depth of the calls is at most [n].  [inevitable sound Q c]: every execution from
    [c], whichever side goes on and whatever numbers are chosen, stays sound (no
    side fails; the numbers waited for on both sides are different) and comes to
    a state with [Q].  See S_Conn for these definitions. *)
Theorem C23_calls_get_their_own_answers :
  forall (V : Type) (p : @prog V), nesting 256 p ->
  inevitable sound (fun c => exists ua ub,
      c = mk_conf (mk_side (Run (Ret (value p))) [] ua) (mk_side Listen [] ub) [] [] /\
      Permutation ua all_nums /\ Permutation ub all_nums)
    (start p).
Proof.
  intros V p HN.
  assert (Hall : NoDup all_nums).
  { unfold all_nums. apply FinFun.Injective_map_NoDup; [|apply seq_NoDup]. intros x y E. now apply Nat2N.inj. }
  apply (run_ok _ p true [] [] all_nums all_nums).
  - constructor; auto; try reflexivity. constructor.
  - unfold all_nums. rewrite map_length, seq_length. exact HN.
  - intros ua ub Hu HW. apply I_now; [apply sound_cf; try exact I; constructor|].
    exists ua, ub. split; [reflexivity|]. destruct HW as [Ha Hb Hab _ _].
    split; apply NoDup_Permutation; auto. intros x. now rewrite <- Hab.
Qed.

(** Reading the outcome off the theorem: no execution can end otherwise. *)
Theorem C23_no_other_outcome :
  forall (V : Type) (p : @prog V), nesting 256 p ->
  forall c, Relation_Operators.clos_refl_trans _ step (start p) c -> sound c.
Proof.
  intros V p HN c HR. pose proof (C23_calls_get_their_own_answers V p HN) as HI.
  apply Operators_Properties.clos_rt_rt1n in HR. induction HR as [c|c0 c1 c2 Hs HR IH].
  - now inversion HI.
  - apply IH. inversion HI as [c Hsd (ua & ub & E & _)|c Hsd _ Hall]; subst; [|auto].
    inversion Hs as [a b ab ba a' ba' out Hst|a b ab ba b' ab' out Hst]; subst; inversion Hst.
Qed.

(** More than 256 nested calls are refused *)
Fixpoint deep (n : nat) : @prog N := match n with O => Ret 0 | S n' => Call (fun _ => deep n') [] (fun v => Ret (v + 1)) end.

(** *** Files passed over the connection *)

Section VF.
Context {F : Type}.
(** what became of a file since it got its number *)
Fixpoint later (id : N) (f : option F) (ops : list (@vfop F)) : option F :=
  match ops with
  | [] => f
  | VUse i g :: ops' => later id (if i =? id then option_map g f else f) ops'
  | VClose i :: ops' => later id (if i =? id then None else f) ops'
  | VNew _ :: ops' => later id f ops'
  end.
Definition vf_run (ops : list (@vfop F)) (s : vfiles) : vfiles := fold_left vf_step ops s.

Definition vf_ok (s : @vfiles F) := forall i f, In (i, f) (vf_tab s) -> i < vf_counter s.
Lemma vf_ok_step s o : vf_ok s -> vf_ok (vf_step s o) /\ vf_counter s <= vf_counter (vf_step s o).
Proof.
  intros H. destruct o as [f|id g|id]; cbn; split; try lia; intros i f' Hi; cbn in *.
  - destruct Hi as [[= <- <-]|Hi]; [lia|]. apply H in Hi. lia.
  - apply in_map_iff in Hi as ([i0 f0] & E & Hi). apply H in Hi. cbn in E. destruct (i0 =? id); injection E as <- <-; exact Hi.
  - apply filter_In in Hi as [Hi _]. now apply H in Hi.
Qed.
Lemma vf_ok_run ops : forall s, vf_ok s -> vf_ok (vf_run ops s) /\ vf_counter s <= vf_counter (vf_run ops s).
Proof.
  induction ops as [|o ops IH]; intros s H; cbn; [split; [assumption|lia]|].
  destruct (vf_ok_step s o H) as [H1 H2]. destruct (IH _ H1) as [H3 H4]. split; [assumption|]. unfold vf_run in *. lia.
Qed.
Lemma find_upd id i g l : vf_find id (map (fun x : N * F => if fst x =? i then (fst x, g (snd x)) else x) l)
  = if i =? id then option_map g (vf_find id l) else vf_find id l.
Proof.
  induction l as [|[j f] l IH]; cbn; [now destruct (i =? id)|].
  destruct (N.eqb_spec j i) as [->|Hj]; cbn.
  - destruct (N.eqb_spec i id); [reflexivity|]. exact IH.
  - destruct (N.eqb_spec j id) as [->|]; [|exact IH]. destruct (N.eqb_spec i id); [congruence|reflexivity].
Qed.
Lemma find_close id i l : vf_find id (filter (fun x : N * F => negb (fst x =? i)) l) = if i =? id then None else vf_find id l.
Proof.
  induction l as [|[j f] l IH]; cbn; [now destruct (i =? id)|].
  destruct (N.eqb_spec j i) as [->|Hj]; cbn; rewrite IH.
  - destruct (N.eqb_spec i id); reflexivity.
  - destruct (N.eqb_spec j id) as [->|]; [|reflexivity]. destruct (N.eqb_spec i id); [congruence|reflexivity].
Qed.
Lemma later_run ops : forall (s : vfiles) id, id < vf_counter s ->
  vf_get id (vf_run ops s) = later id (vf_get id s) ops.
Proof.
  induction ops as [|o ops IH]; intros s id Hc; cbn; [reflexivity|].
  unfold vf_run in *. destruct o as [f|i g|i]; cbn [vf_step]; rewrite IH; cbn; try lia; unfold vf_get; cbn.
  - destruct (N.eqb_spec (vf_counter s) id); [lia|reflexivity].
  - now rewrite find_upd.
  - now rewrite find_close.
Qed.
End VF.

(** Each file or iterator passed over a connection gets a number of its own, never
    given before; under this number it is found, and no other, with what was
    done to it, until it is closed. *)
Theorem C23_file_numbers :
  forall (F : Type) (ops1 ops2 : list (@vfop F)) f,
  let s1 := vf_run ops1 vf_init in let id := snd (vf_new f s1) in
  (forall i g, vf_get i s1 = Some g -> i <> id) /\
  vf_get id (vf_run ops2 (fst (vf_new f s1))) = later id (Some f) ops2 /\
  forall f', snd (vf_new f' (vf_run ops2 (fst (vf_new f s1)))) <> id.
Proof.
  intros F ops1 ops2 f s1 id.
  assert (Hok : vf_ok s1).
  { apply vf_ok_run. intros i g []. }
  assert (Hok2 : vf_ok (fst (vf_new f s1))) by apply (vf_ok_step s1 (VNew f) Hok).
  split; [|split].
  - intros i g Hg E. unfold vf_get in Hg.
    assert (Hin : In (i, g) (vf_tab s1)).
    { revert Hg. clear. induction (vf_tab s1) as [|[j h] l IH]; cbn; [discriminate|].
      destruct (N.eqb_spec j i) as [->|]; [intros [= ->]; auto|auto]. }
    apply Hok in Hin. cbn in E. unfold id in E. cbn in E. lia.
  - rewrite later_run; cbn; [|unfold id; cbn; lia]. unfold vf_get. cbn. now rewrite N.eqb_refl.
  - intros f'. cbn. destruct (vf_ok_run ops2 _ Hok2) as [_ H]. cbn in H. unfold id. cbn. lia.
Qed.

(** ** Examples *)
Example ex_messages : sendable (fun s => s) (7, WRp KQuoted (bs "path")) /\
  exists b, put_all (fun s => s) [(7, WRp KQuoted (bs "path")); (7, WBuf []); (255, WFile 300)] = Some b /\
  get_n Some 5 (b ++ bs "q" ++ be 8 0) = ([(7, WRp KQuoted (bs "path")); (7, WBuf []); (255, WFile 300)], GQuit []).
Proof. split; [split; vm_compute; reflexivity|]. eexists. split; vm_compute; reflexivity. Qed.

Example ex_nested : nesting 256 (Call (fun a => Call (fun b => deep 5) [1] (fun x => Ret (x + hd 0 a))) [40] (fun v => Call (fun _ => Ret v) [] (fun w => Ret w)))
  /\ value (Call (fun a => Call (fun b => deep 5) [1] (fun x => Ret (x + hd 0 a))) [40] (fun v => Call (fun _ => Ret v) [] (fun w => Ret w))) = 45.
Proof. split; [cbn; repeat split|reflexivity]. Qed.
Example ex_too_deep : ~ nesting 256 (deep 257) /\ nesting 256 (deep 256).
Proof. split; [cbn; tauto|cbn; repeat split]. Qed.

Print Assumptions C22_messages_round_trip.
Print Assumptions C22_unsendable_refused.
Print Assumptions C22_streams_unambiguous.
Print Assumptions C22_broken_header_detected.
Print Assumptions C22_broken_data_refuted.
Print Assumptions C23_calls_get_their_own_answers.
Print Assumptions C23_no_other_outcome.
Print Assumptions C23_file_numbers.

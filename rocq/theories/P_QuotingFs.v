(** * C10: what limited file systems get to see *)
From Coq Require Import List ZArith NArith Bool Ascii String Lia.
From Verif Require Import Base L_Base M_Quoting L_Quoting P_Quoting.
Import List ListNotations.
Local Open Scope N_scope.

(** ** Specification, without the definitions of the model *)
(** what a name is for a file system which does not distinguish capitals *)
Definition small (c : ascii) : ascii :=
  let n := N_of_ascii c in if (65 <=? n) && (n <=? 90) then ascii_of_N (n + 32) else c.
Definition same_for_it (a b : bytes) : Prop := map small a = map small b.
(** names Windows keeps for devices, with any extension and capitals *)
Definition devices : list bytes :=
  map bs ["con"; "aux"; "prn"; "nul"; "com0"; "com1"; "com2"; "com3"; "com4"; "com5"; "com6"; "com7"; "com8"; "com9";
          "lpt1"; "lpt2"; "lpt3"; "lpt4"; "lpt5"; "lpt6"; "lpt7"; "lpt8"; "lpt9"]%string.
Definition device (n : bytes) : Prop :=
  exists base, In (map small base) devices /\ (n = base \/ exists ext, n = base ++ bs "." ++ ext).
(** characters Windows refuses *)
Definition refused (c : ascii) : Prop :=
  In c (chr 34 :: bs "*/:<>?\|" ++ [chr 127]).

(** ** Theorems *)
Lemma small_lower c : small c = lower c.
Proof. reflexivity. Qed.
Lemma small_nodigit c d : is_digit d = true -> small c = d -> c = d.
Proof. intros Hd H. destruct c as [[] [] [] [] [] [] [] []]; vm_compute in H; subst d; try reflexivity; discriminate Hd. Qed.
Lemma dos3 a b c tail x y z : small a = x -> small b = y -> small c = z ->
  beq_bytes [x; y; z] (bs "aux") || beq_bytes [x; y; z] (bs "prn") || beq_bytes [x; y; z] (bs "con") || beq_bytes [x; y; z] (bs "nul") = true ->
  dos_end tail = true -> dos_device (a :: b :: c :: tail) = true.
Proof. intros <- <- <- H T. unfold dos_device. change (map lower [a; b; c]) with [small a; small b; small c]. now rewrite H, T. Qed.
Lemma dos4 a b c d tail x y z : small a = x -> small b = y -> small c = z ->
  (beq_bytes [x; y; z] (bs "com") && is_digit d) || (beq_bytes [x; y; z] (bs "lpt") && is_digit d && negb (Ascii.eqb d (chr 48))) = true ->
  dos_end tail = true -> dos_device (a :: b :: c :: d :: tail) = true.
Proof.
  intros <- <- <- H T. unfold dos_device. change (map lower [a; b; c]) with [small a; small b; small c].
  rewrite H, T. now rewrite orb_true_r.
Qed.
Lemma device_dos n : device n -> dos_device n = true.
Proof.
  assert (G : forall base tail, In (map small base) devices -> dos_end tail = true -> dos_device (base ++ tail) = true).
  { intros base tail Hin Ht. cbn in Hin. decompose [or] Hin; try contradiction;
    (destruct base as [|a [|b [|c r]]]; cbn [map] in *; try discriminate;
     match goal with H : _ = _ |- _ =>
       let E := fresh "E" in injection H as A B C E; symmetry in A, B, C, E;
       destruct r as [|d [|e r]]; cbn [map] in E; try discriminate end); cbn [app].
    all: try (eapply dos3; [exact A|exact B|exact C|reflexivity|exact Ht]).
    all: injection E as E; apply small_nodigit in E; [subst d|reflexivity].
    all: eapply dos4; [exact A|exact B|exact C|reflexivity|exact Ht]. }
  intros (base & Hin & [->|(ext & ->)]).
  - rewrite <- (app_nil_r base). now apply G.
  - apply G; [assumption|reflexivity].
Qed.
(** The names written with the DOS device escape are no device names. *)
Theorem C10_device_names : forall cls ets (name : bytes), ~ device (fs_quote cls true ets name).
Proof. intros cls ets name H. apply device_dos in H. rewrite C10_no_dos_device in H. discriminate. Qed.

Lemma ctq_in (l : list (ascii -> bool)) cls c :
  match l with [] => None | _ => Some (fun c => existsb (fun p => p c) l || Ascii.eqb c QUOTING_CHAR) end = Some cls ->
  existsb (fun p => p c) l = true -> cls c = true.
Proof. destruct l as [|b l]; [discriminate|]. intros E H. assert (E2 := f_equal (fun o => match o with Some f => f c | None => true end) E). cbv beta iota in E2. rewrite H in E2. now symmetry. Qed.
(** On file systems with the Windows restrictions no refused character is left in a name,
    nor a control character if it is known whether extended names are possible ... *)
Theorem C10_windows_characters :
  forall src_cs dest_cs dest_ext cls edd ets (name : bytes) c,
  ctq_from_fsas src_cs dest_cs dest_ext true = Some cls -> In c (fs_quote cls edd ets name) ->
  ~ refused c /\ (dest_ext <> None -> 32 <= N_of_ascii c).
Proof.
  intros a b e cls edd ets name c H Hin.
  assert (K : cls c = true -> c = ";"%char) by (intros Hc; exact (C10_fs_quoting_avoids_forbidden a b e true cls edd ets name c H Hin Hc)).
  unfold ctq_from_fsas in H. split.
  - intros R. assert (cls c = true).
    { eapply ctq_in; [exact H|].
      { rewrite !existsb_app. apply orb_true_iff. right. apply orb_true_iff. right.
        apply orb_true_iff. right. cbn [existsb].
        unfold refused in R. cbn in R. decompose [or] R; try contradiction; subst c; reflexivity. } }
    specialize (K H0). subst c. unfold refused in R. cbn in R. decompose [or] R; try contradiction; discriminate.
  - intros He. destruct (N.lt_ge_cases (N_of_ascii c) 32) as [Hlt|]; [exfalso|assumption].
    assert (I : in_range 0 31 c = true).
    { unfold in_range, ord. apply andb_true_iff. split; apply N.leb_le; lia. }
    assert (cls c = true).
    { eapply ctq_in; [exact H|].
      { rewrite !existsb_app. apply orb_true_iff. right. apply orb_true_iff.
        destruct e as [[]|]; [right|left|congruence]; cbn [existsb app]; now rewrite I. } }
    rewrite (K H0) in Hlt. vm_compute in Hlt. discriminate.
Qed.
(** ... and on file systems without extended names, only printable ASCII. *)
Theorem C10_plain_names :
  forall src_cs dest_cs dest_win cls edd ets (name : bytes) c,
  ctq_from_fsas src_cs dest_cs (Some false) dest_win = Some cls -> In c (fs_quote cls edd ets name) ->
  32 <= N_of_ascii c < 128.
Proof.
  intros a b w cls edd ets name c H Hin.
  assert (K : cls c = true -> c = ";"%char) by (intros Hc; exact (C10_fs_quoting_avoids_forbidden a b (Some false) w cls edd ets name c H Hin Hc)).
  unfold ctq_from_fsas in H.
  assert (Q : in_range 0 31 c || in_range 128 255 c = true -> cls c = true).
  { intros I. eapply ctq_in; [exact H|].
    { rewrite !existsb_app. apply orb_true_iff. right. apply orb_true_iff. left. cbn [existsb]. now rewrite orb_false_r. } }
  assert (B : N_of_ascii c < 256) by (pose proof (N_ascii_bounded c); lia).
  destruct (N.lt_ge_cases (N_of_ascii c) 32) as [Hlt|Hge]; [|destruct (N.lt_ge_cases (N_of_ascii c) 128) as [|Hge2]; [lia|]]; exfalso.
  - assert (E : c = ";"%char).
    { apply K, Q. unfold in_range, ord. apply orb_true_iff. left. apply andb_true_iff. split; apply N.leb_le; lia. }
    subst c. vm_compute in Hlt. discriminate.
  - assert (E : c = ";"%char).
    { apply K, Q. unfold in_range, ord. apply orb_true_iff. right. apply andb_true_iff. split; apply N.leb_le; lia. }
    subst c. vm_compute in Hge2. now apply Hge2.
Qed.

(** Names differing in capitals only don't collide on a file system which does not
    distinguish them, if the source does. *)
Theorem C10_capitals_kept_apart :
  forall dest_ext dest_win cls edd ets (a b : bytes),
  dest_ext <> Some false -> ctq_from_fsas true false dest_ext dest_win = Some cls ->
  same_for_it (fs_quote cls edd ets a) (fs_quote cls edd ets b) -> a = b.
Proof.
  intros e w cls edd ets a b He H Q.
  assert (C : forall x, map small (fs_quote cls edd ets x) = fs_quote cls edd ets x).
  { intros x. rewrite <- (map_id (fs_quote cls edd ets x)) at 2. apply map_ext_in. intros c Hc. unfold small.
    destruct ((65 <=? N_of_ascii c) && (N_of_ascii c <=? 90)) eqn:R; [exfalso|reflexivity].
    assert (E : cls c = true).
    { pose proof H as H'. unfold ctq_from_fsas in H'. cbn [andb negb app] in H'. injection H' as <-. cbv beta.
      cbn [existsb]. unfold in_range at 1, ord at 1 2. now rewrite R. }
    apply (C10_fs_quoting_avoids_forbidden true false e w cls edd ets x c H Hc) in E. subst c. discriminate R. }
  unfold same_for_it in Q. rewrite !C in Q.
  rewrite <- (C10_fs_quoting_roundtrip_detected true false e w cls edd ets a He H), Q.
  exact (C10_fs_quoting_roundtrip_detected true false e w cls edd ets b He H).
Qed.
(** Without the quoting they would. *)
Example capitals_meets :
  exists cls, ctq_from_fsas true false (Some true) true = Some cls /\
  same_for_it (bs "Read*") (bs "read*") /\ device (bs "Com1.txt") /\
  fs_quote cls true true (bs "Read*") = bs ";082ead;042" /\ fs_quote cls true true (bs "read*") = bs "read;042" /\
  fs_quote cls true true (bs "aux.txt") = bs ";097ux.txt".
Proof.
  eexists. split; [reflexivity|]. repeat split; try (vm_compute; reflexivity).
  exists (bs "Com1"). split; [vm_compute; tauto|]. right. now exists (bs "txt").
Qed.
Print Assumptions C10_device_names.
Print Assumptions C10_windows_characters.
Print Assumptions C10_plain_names.
Print Assumptions C10_capitals_kept_apart.

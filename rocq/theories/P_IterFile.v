(** * C21: streams of files over a connection *)
From Coq Require Import List NArith Bool Lia.
From Verif Require Import Base L_Base M_Conn M_IterFile S_IterFile L_IterFile.
Import List ListNotations.

(** Whatever the limits of the sender's buffer, the way the files come in blocks,
    and the sequence of requests for the next item, reads and closes made by
    the receiving side: it observes exactly what a reader of the original items
    would, as long as it reads each file to its end or error (see S_IterFile). *)
Theorem C21_stream_round_trip :
  forall (Ob R E C : Type) (pickle : @pobj Ob R E C -> bytes) unpickle,
  (forall p, unpickle (pickle p) = Some p) ->
  forall it maxb maxr ops l,
  (forall i, In i it -> good_item pickle i) -> (0 < maxb)%N -> (0 < maxr)%nat ->
  spec_run (it, ANone) ops = Some l ->
  rrun pickle unpickle (new_recv (new_sender it maxb maxr)) ops = l.
Proof.
  intros Ob R E C pickle unpickle Hp it maxb maxr ops l Hg H1 H2 HS.
  apply (sim_run pickle unpickle Hp ops _ it ANone l Hg); [|exact HS]. now apply sim_start.
Qed.

(** What the specification says for the usual case: reading a file in pieces of
    any positive sizes up to its end gives its content. *)
Fixpoint pieces (sizes : list nat) (d : bytes) : list bytes :=
  match sizes with
  | [] => []
  | n :: sizes' => firstn n d :: pieces sizes' (skipn n d)
  end.
Theorem C21_file_in_pieces :
  forall (Ob R E C : Type) (pickle : @pobj Ob R E C -> bytes) unpickle,
  (forall p, unpickle (pickle p) = Some p) ->
  forall it rp bl c it' maxb maxr sizes,
  it = IRorp rp (Some (mk_sf bl (FEof c))) :: it' ->
  (forall i, In i it -> good_item pickle i) -> (0 < maxb)%N -> (0 < maxr)%nat ->
  length (concat bl) <= list_sum sizes ->
  rrun pickle unpickle (new_recv (new_sender it maxb maxr))
    (Next :: map (fun n => Read (Some n)) sizes ++ [Close])
  = ObRorp rp true :: map ObData (pieces sizes (concat bl)) ++ [ObClosed (Some c)]
  /\ concat (pieces sizes (concat bl)) = concat bl.
Proof.
  intros Ob R E C pickle unpickle Hp it rp bl c it' maxb maxr sizes -> Hg H1 H2 Hs. split.
  - apply (C21_stream_round_trip Ob R E C pickle unpickle Hp); auto.
    cbn [spec_run]. cbn [spec_step next_item]. unfold open_file. cbn [f_blocks f_end].
    assert (Ho : match concat bl with [] => AOpen (concat bl) (@FEof E C c) | _ :: _ => AOpen (concat bl) (FEof c) end = AOpen (concat bl) (FEof c)) by now destruct (concat bl).
    replace (match concat bl with [] => match FEof c with FErr e => @AErrFile E C e | FEof _ => AOpen [] (FEof c) end | a :: l => AOpen (a :: l) (FEof c) end)
      with (AOpen (concat bl) (@FEof E C c)) by (destruct (concat bl); reflexivity).
    clear Ho. change bytes with (list ascii) in *. revert Hs. generalize (@concat ascii bl) as d. clear.
    assert (H : forall d, length d <= list_sum sizes ->
       spec_run (it', AOpen d (@FEof E C c)) (map (fun n => Read (Some n)) sizes ++ [Close])
       = Some (map ObData (pieces sizes d) ++ [@ObClosed Ob R E C (Some c)])).
    { induction sizes as [|n sizes IH]; intros d Hd.
      - cbn in Hd. destruct d; [reflexivity|cbn in Hd; lia].
      - cbn [map app pieces]. cbn [spec_run spec_step].
        destruct (Nat.leb_spec (length d) n) as [Hn|Hn].
        + rewrite IH by (cbn; lia). rewrite (firstn_all2 d Hn), (skipn_all2 d Hn). reflexivity.
        + rewrite IH; [reflexivity|]. rewrite skipn_length. change (list_sum (n :: sizes)) with (n + list_sum sizes) in Hd. lia. }
    intros d Hd. now rewrite H.
  - clear - Hs. change bytes with (list ascii) in *. revert Hs. generalize (@concat ascii bl) as d.
    induction sizes as [|n sizes IH]; intros d Hd; cbn [pieces concat].
    + cbn in Hd. destruct d; [reflexivity|cbn in Hd; lia].
    + change (list_sum (n :: sizes)) with (n + list_sum sizes) in Hd. rewrite IH by (rewrite skipn_length; lia). apply firstn_skipn.
Qed.

(** An error while the file is read on the other side is raised by the reads,
    never taken for the end of the file, and the stream goes on after it. *)
Theorem C21_errors_passed_on :
  forall (Ob R E C : Type) (pickle : @pobj Ob R E C -> bytes) unpickle,
  (forall p, unpickle (pickle p) = Some p) ->
  forall rp bl e rp2 maxb maxr len,
  let it := [IRorp rp (Some (mk_sf bl (FErr e))); IRorp rp2 None] in
  (forall i, In i it -> good_item pickle i) -> (0 < maxb)%N -> (0 < maxr)%nat ->
  match len with Some n => length (concat bl) <= n | None => True end ->
  rrun pickle unpickle (new_recv (new_sender it maxb maxr)) [Next; Read len; Next; Next]
  = [ObRorp rp true; ObRaise (XExc e); ObRorp rp2 false; ObStop].
Proof.
  intros Ob R E C pickle unpickle Hp rp bl e rp2 maxb maxr len it Hg H1 H2 Hl.
  apply (C21_stream_round_trip Ob R E C pickle unpickle Hp); auto.
  cbn [spec_run spec_step it next_item]. unfold open_file. cbn [f_blocks f_end].
  change bytes with (list ascii) in *. destruct (@concat ascii bl) as [|a d] eqn:Ec.
  - reflexivity.
  - cbn [spec_step].
    replace (match len with Some n => Nat.leb (length (a :: d)) n | None => true end) with true.
    + reflexivity.
    + destruct len as [n|]; [|reflexivity]. symmetry. now apply Nat.leb_le.
Qed.

(** *** Where the code falls short: leaving a file before its end.  With two more
    non-empty blocks to come, going on to the next item raises TypeError
    (close() makes the buffer a str and adds bytes to it). *)
Definition x_pickle (p : @pobj unit unit unit unit) : bytes :=
  match p with PObj _ => bs "o" | PFlushRepeat => bs "F" | PRorp _ true => bs "R" | PRorp _ false => bs "r" | PExc _ => bs "x" | PClose _ => bs "c" end.
Definition x_unpickle (b : bytes) : option (@pobj unit unit unit unit) :=
  if beq_bytes b (bs "o") then Some (PObj tt) else if beq_bytes b (bs "F") then Some PFlushRepeat
  else if beq_bytes b (bs "R") then Some (PRorp tt true) else if beq_bytes b (bs "r") then Some (PRorp tt false)
  else if beq_bytes b (bs "x") then Some (PExc tt) else if beq_bytes b (bs "c") then Some (PClose tt) else None.
Lemma x_ok p : x_unpickle (x_pickle p) = Some p.
Proof. destruct p as [[]| |[] []|[]|[]]; reflexivity. Qed.

Theorem C21_unread_file_refuted :
  exists it maxb maxr, (forall i, In i it -> good_item x_pickle i) /\
    rrun x_pickle x_unpickle (new_recv (new_sender it maxb maxr)) [Next; Next]
    = [ObRorp tt true; ObRaise (XPy "TypeError")].
Proof.
  exists [IRorp tt (Some (mk_sf [bs "abc"; bs "def"; bs "ghi"] (FEof tt))); IRorp tt None], 100%N, 5.
  split; [|vm_compute; reflexivity].
  intros i [<-|[<-|[]]]; (split; [vm_compute; reflexivity|]); try exact I.
  split; [|vm_compute; reflexivity]. cbn. intros b [<-|[<-|[<-|[]]]]; split; try discriminate; vm_compute; reflexivity.
Qed.

(** Leaving a file before its end when at most one more block is to come is fine. *)
Example ex_unread_short :
  rrun x_pickle x_unpickle (new_recv (new_sender [IRorp tt (Some (mk_sf [bs "abc"; bs "def"] (FEof tt))); IRorp tt None] 100 5)) [Next; Next]
  = [ObRorp tt true; ObRorp tt false].
Proof. vm_compute. reflexivity. Qed.

(** ** Example: flushes, a small buffer, reads of various sizes *)
Definition ex_it : list (@item unit unit unit unit) :=
  [IObj tt; IFlush; IFlush; IRorp tt (Some (mk_sf [bs "abc"; bs "de"] (FEof tt))); IFlushRepeat;
   IRorp tt (Some (mk_sf [] (FErr tt))); IRorp tt (Some (mk_sf [] (FEof tt)))].
Definition ex_ops := [Next; Next; Read (Some 4); Read (Some 1); Read None; Close; Read None; Next; Next; Read (Some 1); Next; Read None; Next].
Definition ex_obs : list (@obs unit unit unit unit) :=
  [ObObj tt; ObRorp tt true; ObData (bs "abcd"); ObData (bs "e"); ObData []; ObClosed (Some tt); ObRaise (XPy "AssertionError");
   ObFlushRepeat; ObRorp tt true; ObRaise (XExc tt); ObRorp tt true; ObData []; ObStop].
Example ex_stream : (forall i, In i ex_it -> good_item x_pickle i) /\ spec_run (ex_it, ANone) ex_ops = Some ex_obs
  /\ rrun x_pickle x_unpickle (new_recv (new_sender ex_it 9 2)) ex_ops = ex_obs.
Proof.
  split; [|split; vm_compute; reflexivity].
  assert (F : forall s, (N.of_nat (length s) <? 256 ^ 7)%N = true -> fits s) by (intros s; apply N.ltb_lt).
  intros i [<-|[<-|[<-|[<-|[<-|[<-|[<-|[]]]]]]]]; unfold good_item, good_file; cbn [f_blocks f_end].
  - apply F. vm_compute. reflexivity.
  - exact I.
  - exact I.
  - split; [apply F; vm_compute; reflexivity|]. split; [|apply F; vm_compute; reflexivity].
    intros b [<-|[<-|[]]]; split; try discriminate; apply F; vm_compute; reflexivity.
  - apply F. vm_compute. reflexivity.
  - split; [apply F; vm_compute; reflexivity|]. split; [|apply F; vm_compute; reflexivity]. intros b [].
  - split; [apply F; vm_compute; reflexivity|]. split; [|apply F; vm_compute; reflexivity]. intros b [].
Qed.

Print Assumptions C21_stream_round_trip.
Print Assumptions C21_file_in_pieces.
Print Assumptions C21_errors_passed_on.
Print Assumptions C21_unread_file_refuted.

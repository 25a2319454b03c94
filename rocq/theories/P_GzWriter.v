(** * C80: the files of the data directory. *)
From Coq Require Import List Bool Ascii Arith Lia.
From Verif Require Import Base M_Meta M_GzWriter S_GzWriter.
Import List ListNotations.

Lemma gzipped_path r : r_index r <> [] -> path_of (gzipped r) = with_gz (path_of r).
Proof.
  destruct r as [b ix]. cbn [r_index]. intros N. unfold path_of, gzipped, with_gz. cbn [r_base r_index].
  rewrite removelast_app by exact N.
  assert (L : last (b ++ ix) [] = last ix []).
  { destruct (exists_last N) as (l & a & ->). rewrite app_assoc, !last_last. reflexivity. }
  rewrite L, <- app_assoc. destruct ix as [|a ix]; [now destruct N|]. reflexivity.
Qed.
Lemma gz_name_with p : gz_name (with_gz p) = true.
Proof. unfold gz_name, with_gz. rewrite last_last, rev_app_distr. reflexivity. Qed.
Lemma with_gz_neq p : p <> with_gz p.
Proof.
  unfold with_gz. intros E. destruct p as [|a p]; [discriminate|].
  assert (N : a :: p <> []) by discriminate. destruct (exists_last N) as (l & x & E2). rewrite E2 in E.
  rewrite removelast_last, last_last in E. apply app_inj_tail in E as [_ E].
  apply (f_equal (@List.length ascii)) in E. rewrite app_length in E. cbn in E. lia.
Qed.

Lemma put_same d p f : put d p f p = Some f.
Proof. unfold put. destruct (path_dec p p); [reflexivity|contradiction]. Qed.
Lemma put_other d p f q : q <> p -> put d p f q = d q.
Proof. unfold put. destruct (path_dec q p); [contradiction|reflexivity]. Qed.

(** the state of a writer which has flushed the records [fl] *)
Inductive st (d0 : dir) (r : rp) : option bool -> dir -> writer -> list bytes -> Prop :=
| st_none : forall d w fl, concat fl = [] -> (forall q, d q = d0 q) ->
    w_maybe w = Some r -> w_open w = None -> w_calls w = [] -> st d0 r None d w fl
| st_some : forall d w fl, concat fl <> [] ->
    only d0 d (path_of (gzipped r)) -> d (path_of (gzipped r)) = Some (mk_file true (concat fl) false) ->
    w_open w = Some (gzipped r) -> w_rp w = Some (gzipped r) -> w_calls w = [] -> st d0 r None d w fl
| st_plain : forall d w fl g, only d0 d (path_of r) -> d (path_of r) = Some (mk_file g (concat fl) false) ->
    w_open w = Some r -> w_rp w = Some r -> w_calls w = [] -> st d0 r (Some g) d w fl.

Lemma st_write d0 r k d w fl b : st d0 r k d w fl ->
  st d0 r k (fst (write d w (concat b))) (snd (write d w (concat b))) (fl ++ b).
Proof.
  intros S. unfold write. destruct S as [d w fl E D M O C|d w fl E D F O R C|d w fl g D F O R C].
  - rewrite O, M. destruct (concat b) as [|x y] eqn:B; cbn [fst snd].
    + apply st_none; try assumption. now rewrite concat_app, E, B.
    + apply st_some; cbn; try reflexivity; try assumption.
      * rewrite concat_app, E, B. discriminate.
      * intros q N. unfold append, open_wb. rewrite put_same. cbn [f_gz f_done f_data]. rewrite !put_other by exact N. apply D.
      * unfold append, open_wb. rewrite put_same. rewrite put_same. cbn. now rewrite concat_app, E, B.
  - rewrite O. cbn [fst snd]. apply st_some; try assumption.
    + rewrite concat_app. destruct (concat fl); [contradiction|discriminate].
    + intros q N. unfold append. rewrite F. rewrite put_other by exact N. now apply D.
    + unfold append. rewrite F, put_same. cbn. now rewrite concat_app.
  - rewrite O. cbn [fst snd]. apply st_plain; try assumption.
    + intros q N. unfold append. rewrite F. rewrite put_other by exact N. now apply D.
    + unfold append. rewrite F, put_same. cbn. now rewrite concat_app.
Qed.
Lemma st_buffer d0 r k d w fl b : st d0 r k d w fl -> st d0 r k d (set_buffer w b) fl.
Proof. intros S. destruct S; [apply st_none|apply st_some|apply st_plain]; assumption. Qed.
Lemma write_buffer d w b : w_buffer (snd (write d w b)) = w_buffer w.
Proof. unfold write. destruct (w_open w); [reflexivity|]. destruct (w_maybe w), b; reflexivity. Qed.

Lemma st_records d0 r k : forall records d w fl, st d0 r k d w fl ->
  (List.length fl mod 100 = 0)%nat -> (List.length (w_buffer w) < 100)%nat ->
  exists fl', st d0 r k (fst (write_records d w records)) (snd (write_records d w records)) fl' /\
    (List.length fl' mod 100 = 0)%nat /\ (List.length (w_buffer (snd (write_records d w records))) < 100)%nat /\
    fl' ++ w_buffer (snd (write_records d w records)) = fl ++ w_buffer w ++ records.
Proof.
  induction records as [|x l IH]; intros d w fl S L B; cbn [write_records].
  - exists fl. cbn [fst snd]. rewrite app_nil_r. auto.
  - unfold write_record. change MAX_BUFFER with 100%nat.
    destruct (Nat.leb_spec 100 (List.length (w_buffer w ++ [x]))) as [C|C].
    + pose proof (st_write d0 r k d w fl (w_buffer w ++ [x]) S) as S2.
      destruct (write d w (concat (w_buffer w ++ [x]))) as [d2 w2]. cbn [fst snd] in S2.
      destruct (IH d2 (set_buffer w2 []) (fl ++ w_buffer w ++ [x])) as (fl' & S3 & L3 & B3 & E3).
      * now apply st_buffer.
      * rewrite app_length in *. cbn [List.length] in *. 
        assert (Q : List.length (w_buffer w ++ [x]) = 100%nat) by (rewrite app_length; cbn [List.length]; lia).
        rewrite Q. rewrite Nat.add_mod by lia. rewrite L. reflexivity.
      * cbn. lia.
      * exists fl'. repeat split; try assumption. rewrite E3. cbn [set_buffer w_buffer]. cbn [app]. now rewrite <- !app_assoc.
    + destruct (IH d (set_buffer w (w_buffer w ++ [x])) fl) as (fl' & S3 & L3 & B3 & E3).
      * now apply st_buffer.
      * exact L.
      * exact C.
      * exists fl'. repeat split; try assumption. rewrite E3. cbn [set_buffer w_buffer]. now rewrite <- !app_assoc.
Qed.

Lemma hundreds (fl b records : list bytes) : (List.length fl mod 100 = 0)%nat -> (List.length b < 100)%nat ->
  fl ++ b = records -> fl = full_hundreds records.
Proof.
  intros M L <-. unfold full_hundreds. rewrite app_length.
  assert (Q : (100 * ((List.length fl + List.length b) / 100) = List.length fl)%nat).
  { apply Nat.mod_divide in M; [|lia]. destruct M as [k M]. rewrite M. rewrite Nat.add_comm, Nat.div_add by lia.
    rewrite Nat.div_small by exact L. lia. }
  rewrite Q, firstn_app, Nat.sub_diag, firstn_all, firstn_O. now rewrite app_nil_r.
Qed.

(** how it is opened *)
Definition kind (p : path) (check_path compress : bool) : option bool :=
  if compress && check_path && negb (gz_name p) then None else Some compress.
Lemma opened d r check compress named d1 w : open_writer d r check compress named = Some (d1, w) ->
  st d r (kind (path_of r) check compress) d1 w [] /\ w_buffer w = [] /\ d (path_of r) = None.
Proof.
  unfold open_writer, kind. destruct (check && negb named); [discriminate|].
  destruct (compress && check && negb (gz_name (path_of r))); unfold exists_;
    destruct (d (path_of r)) eqn:E; try discriminate; intros H; injection H as <- <-; (split; [|split; reflexivity]).
  - now apply st_none.
  - apply st_plain; try reflexivity.
    + intros q N. now apply put_other.
    + apply put_same.
Qed.

Lemma st_close d0 r k d w fl d' r' calls : st d0 r k d w fl -> close d w = Some (d', r', calls) ->
  let c := concat (fl ++ w_buffer w) in
  calls = [r'] /\ only d0 d' (path_of r') /\
  match k with
  | Some g => r' = r /\ d' (path_of r) = Some (mk_file g c true)
  | None => (c = [] /\ r' = r /\ d' (path_of r) = Some (mk_file false [] true)) \/
            (c <> [] /\ r' = gzipped r /\ d' (path_of r') = Some (mk_file true c true))
  end.
Proof.
  intros S H. unfold close in H.
  assert (S2 : exists d2 w2, match w_buffer w with
                | [] => (d, w)
                | b => let (d, w) := write d w (concat b) in (d, set_buffer w [])
                end = (d2, w2) /\ st d0 r k d2 w2 (fl ++ w_buffer w)).
  { destruct (w_buffer w) as [|x b].
    - exists d, w. rewrite app_nil_r. auto.
    - pose proof (st_write d0 r k d w fl (x :: b) S) as S2. destruct (write d w (concat (x :: b))) as [d2 w2].
      exists d2, (set_buffer w2 []). split; [reflexivity|]. now apply st_buffer. }
  destruct S2 as (d2 & w2 & E & S2). rewrite E in H. clear E S. intros c. fold c.
  remember (fl ++ w_buffer w) as fl2. unfold c. clear c Heqfl2 fl.
  destruct S2 as [d2 w2 fl2 E D M O C|d2 w2 fl2 E D F O R C|d2 w2 fl2 g D F O R C].
  - rewrite O, M in H. injection H as <- <- <-. rewrite C.
    unfold finish, open_wb. rewrite put_same. cbn [f_gz f_data]. split; [reflexivity|]. split.
    + intros q N. rewrite !put_other by exact N. apply D.
    + left. repeat split; try assumption. apply put_same.
  - rewrite O, R in H. injection H as <- <- <-. rewrite C. split; [reflexivity|].
    unfold finish. rewrite F. split.
    + intros q N. rewrite put_other by exact N. now apply D.
    + right. repeat split; try assumption. apply put_same.
  - rewrite O, R in H. injection H as <- <- <-. rewrite C. split; [reflexivity|].
    unfold finish. rewrite F. split.
    + intros q N. rewrite put_other by exact N. now apply D.
    + split; [reflexivity|]. apply put_same.
Qed.

Lemma all_written d r check compress named records d' r' calls :
  write_all d r check compress named records = Some (d', r', calls) ->
  calls = [r'] /\ only d d' (path_of r') /\ d (path_of r) = None /\
  match kind (path_of r) check compress with
  | Some g => r' = r /\ d' (path_of r) = Some (mk_file g (concat records) true)
  | None => (concat records = [] /\ r' = r /\ d' (path_of r) = Some (mk_file false [] true)) \/
            (concat records <> [] /\ r' = gzipped r /\ d' (path_of r') = Some (mk_file true (concat records) true))
  end.
Proof.
  unfold write_all. destruct (open_writer _ _ _ _ _) as [[d1 w]|] eqn:O; [|discriminate].
  apply opened in O as (S & B & N). 
  destruct (st_records d r _ records d1 w [] S eq_refl) as (fl & S2 & _ & _ & E); [rewrite B; cbn; lia|].
  rewrite B in E. destruct (write_records d1 w records) as [d2 w2]. cbn [fst snd app] in *. intros H.
  pose proof (st_close _ _ _ _ _ _ _ _ _ S2 H) as K. cbv zeta in K. rewrite E in K. tauto.
Qed.

(** C80: what is written is what is read; the file is the one named, or the compressed
    one besides when there is something to compress; it is told once under its true name,
    and nothing else changes. *)
Theorem C80_written_is_read : forall d r compress records d' r' calls,
  r_index r <> [] -> (compress = true \/ gz_name (path_of r) = false) ->
  write_all d r true compress true records = Some (d', r', calls) ->
  calls = [r'] /\
  (path_of r' = path_of r \/
   compress = true /\ gz_name (path_of r) = false /\ concat records <> [] /\ path_of r' = with_gz (path_of r) /\ d' (path_of r) = None) /\
  (concat records <> [] -> compress = true -> gz_name (path_of r') = true) /\
  read d' (path_of r') = Some (concat records) /\
  only d d' (path_of r').
Proof.
  intros d r compress records d' r' calls NI G H. apply all_written in H as (C & O & N & K).
  split; [exact C|]. unfold kind in K. rewrite andb_true_r in K. destruct compress; cbn [andb] in K.
  - destruct (gz_name (path_of r)) eqn:GN; cbn [negb] in K.
    + destruct K as [-> F]. unfold read. rewrite F, GN. cbn. repeat split; auto.
    + destruct K as [(E & -> & F)|(E & -> & F)].
      * unfold read. rewrite F, GN. cbn. rewrite E. repeat split; auto; try (now intros []).
      * rewrite gzipped_path in * by exact NI. unfold read. rewrite F, gz_name_with. cbn.
        repeat split; auto. right. repeat split; auto.
        rewrite O by apply with_gz_neq. exact N.
  - destruct G as [G|G]; [discriminate|]. destruct K as [-> F]. unfold read. rewrite F, G. cbn. repeat split; auto; try discriminate.
Qed.
Print Assumptions C80_written_is_read.

(** C80: a writing is refused exactly when the file named is there already. *)
Theorem C80_refused : forall d r compress records,
  write_all d r true compress true records = None <-> d (path_of r) <> None.
Proof.
  intros d r compress records. split.
  - intros H E. unfold write_all in H. destruct (open_writer d r true compress true) as [[d1 w]|] eqn:O.
    + apply opened in O as (S & B & N).
      destruct (st_records d r _ records d1 w [] S eq_refl) as (fl & S2 & _ & _ & _); [rewrite B; cbn; lia|].
      destruct (write_records d1 w records) as [d2 w2]. cbn [fst snd] in S2.
      unfold close in H.
      assert (S3 : exists d3 w3 fl3, match w_buffer w2 with
                | [] => (d2, w2)
                | b => let (d, w) := write d2 w2 (concat b) in (d, set_buffer w [])
                end = (d3, w3) /\ st d r (kind (path_of r) true compress) d3 w3 fl3).
      { destruct (w_buffer w2) as [|x b]; [now exists d2, w2, fl|].
        pose proof (st_write _ _ _ _ _ _ (x :: b) S2) as S3. destruct (write d2 w2 (concat (x :: b))) as [d3 w3].
        exists d3, (set_buffer w3 []), (fl ++ x :: b). split; [reflexivity|]. now apply st_buffer. }
      destruct S3 as (d3 & w3 & fl3 & E3 & S3). rewrite E3 in H. clear E3.
      destruct S3 as [d3 w3 fl3 A1 A2 A3 A4 A5|d3 w3 fl3 A1 A2 A3 A4 A5 A6|d3 w3 fl3 g A1 A2 A3 A4 A5];
        rewrite ?A4, ?A3, ?A5 in H; discriminate.
    + unfold open_writer, exists_ in O. rewrite E in O. cbn [andb negb] in O.
      destruct (compress && true && negb (gz_name (path_of r))); discriminate.
  - intros N. unfold write_all, open_writer, exists_. cbn [andb negb].
    destruct (d (path_of r)); [|contradiction]. now destruct (compress && true && negb (gz_name (path_of r))).
Qed.
Print Assumptions C80_refused.

(** C80: interrupted before it is closed, a compressed file is either not there yet or
    can't be taken for a whole one, and an uncompressed one holds whole records. *)
Theorem C80_interrupted : forall d r compress records d',
  r_index r <> [] -> interrupted d r true compress true records = Some d' ->
  let flushed := concat (full_hundreds records) in
  match compress, gz_name (path_of r) with
  | true, false => (flushed = [] /\ forall q, d' q = d q) \/
                   (flushed <> [] /\ read d' (with_gz (path_of r)) = None /\ only d d' (with_gz (path_of r)))
  | true, true => read d' (path_of r) = None /\ only d d' (path_of r)
  | false, false => read d' (path_of r) = Some flushed /\ only d d' (path_of r)
  | false, true => only d d' (path_of r)
  end.
Proof.
  intros d r compress records d' NI H. unfold interrupted in H.
  destruct (open_writer _ _ _ _ _) as [[d1 w]|] eqn:O; [|discriminate]. injection H as <-.
  apply opened in O as (S & B & N).
  destruct (st_records d r _ records d1 w [] S eq_refl) as (fl & S2 & M & L & E); [rewrite B; cbn; lia|].
  rewrite B in E. cbn [app] in E. rewrite (hundreds _ _ _ M L E) in S2. cbv zeta.
  destruct (write_records d1 w records) as [d2 w2]. cbn [fst snd] in *. clear - S2 NI.
  unfold kind in S2. rewrite andb_true_r in S2.
  destruct compress; cbn [andb] in S2; destruct (gz_name (path_of r)) eqn:G; cbn [negb] in S2;
    inversion S2; subst; clear S2.
  - split; [|assumption]. unfold read. rewrite G.
    match goal with F : d2 _ = Some _ |- _ => rewrite F end. reflexivity.
  - left. split; assumption.
  - right. rewrite gzipped_path in * by exact NI. repeat split; try assumption. unfold read. rewrite gz_name_with.
    match goal with F : d2 _ = Some _ |- _ => rewrite F end. reflexivity.
  - assumption.
  - split; [|assumption]. unfold read. rewrite G.
    match goal with F : d2 _ = Some _ |- _ => rewrite F end. reflexivity.
Qed.
Print Assumptions C80_interrupted.

(** C80: a snapshot made again for a regression is what was written, under its final
    name, and the temporary file is gone. *)
Theorem C80_recreated : forall d tmp final records d',
  gz_name (path_of final) = true -> path_of tmp <> path_of final ->
  recreate d tmp final true records = Some d' ->
  read d' (path_of final) = Some (concat records) /\ d' (path_of tmp) = None /\
  forall q, q <> path_of final -> q <> path_of tmp -> d' q = d q.
Proof.
  intros d tmp final records d' G NE H. unfold recreate in H.
  destruct (write_all _ _ _ _ _ _) as [[[d1 r1] calls]|] eqn:W; [|discriminate].
  apply all_written in W as (C & O & N & K). unfold kind in K. cbn [andb] in K. destruct K as [-> F].
  destruct (exists_ d1 final); [discriminate|]. rewrite F in H. injection H as <-.
  split; [|split].
  - unfold read. destruct (path_dec (path_of final) (path_of tmp)) as [E|_]; [now destruct NE|].
    rewrite put_same, G. reflexivity.
  - destruct (path_dec (path_of tmp) (path_of tmp)); [reflexivity|contradiction].
  - intros q N1 N2. destruct (path_dec q (path_of tmp)); [contradiction|]. rewrite put_other by exact N1. now apply O.
Qed.
Print Assumptions C80_recreated.

(** The temporary file of a snapshot made again isn't taken for metadata by its name. *)
Theorem C80_temporary_unread : forall d tmp named records d' r' calls,
  gz_name (path_of tmp) = false ->
  write_all d tmp false true named records = Some (d', r', calls) -> r' = tmp /\ read d' (path_of tmp) = None.
Proof.
  intros d tmp named records d' r' calls G W. apply all_written in W as (_ & _ & _ & K). unfold kind in K. cbn [andb] in K.
  destruct K as [-> F]. split; [reflexivity|]. unfold read. now rewrite F, G.
Qed.
Print Assumptions C80_temporary_unread.

(** Exceptions. *)
(** With --no-compression the snapshot made again is unreadable. *)
Theorem C80_recreated_uncompressed_refuted : forall d tmp final records d',
  gz_name (path_of final) = true -> path_of tmp <> path_of final -> concat records <> [] ->
  recreate d tmp final false records = Some d' -> read d' (path_of final) = None.
Proof.
  intros d tmp final records d' G NE NR H. unfold recreate in H.
  destruct (write_all _ _ _ _ _ _) as [[[d1 r1] calls]|] eqn:W; [|discriminate].
  apply all_written in W as (C & O & N & K). unfold kind in K. cbn [andb] in K. destruct K as [-> F].
  destruct (exists_ d1 final); [discriminate|]. rewrite F in H. injection H as <-.
  unfold read. destruct (path_dec (path_of final) (path_of tmp)) as [E|_]; [now destruct NE|].
  rewrite put_same, G. cbn. destruct (concat records); [contradiction|reflexivity].
Qed.
Print Assumptions C80_recreated_uncompressed_refuted.

(** The compressed file isn't looked for: what was in it is lost without a word. *)
Theorem C80_overwritten_refuted : forall d r records,
  r_index r <> [] -> gz_name (path_of r) = false -> d (path_of r) = None -> concat records <> [] ->
  exists d' r', write_all d r true true true records = Some (d', r', [r']) /\
    path_of r' = with_gz (path_of r) /\ read d' (with_gz (path_of r)) = Some (concat records).
Proof.
  intros d r records NI G N NR.
  destruct (write_all d r true true true records) as [[[d' r'] calls]|] eqn:W.
  - pose proof (C80_written_is_read d r true records d' r' calls NI (or_introl eq_refl) W) as (-> & P & GZ & R & _).
    exists d', r'. split; [reflexivity|]. destruct P as [P|(_ & _ & _ & P & _)].
    + exfalso. specialize (GZ NR eq_refl). rewrite P in GZ. congruence.
    + rewrite P in R. split; assumption.
  - apply C80_refused in W. contradiction.
Qed.
Print Assumptions C80_overwritten_refuted.

(** Nothing to write beside a compressed file of the same name: both are there. *)
Theorem C80_both_refuted : forall d r old,
  r_index r <> [] -> gz_name (path_of r) = false -> d (path_of r) = None -> d (with_gz (path_of r)) = Some old ->
  exists d', write_all d r true true true [] = Some (d', r, [r]) /\
    d' (path_of r) = Some (mk_file false [] true) /\ d' (with_gz (path_of r)) = Some old.
Proof.
  intros d r old NI G N O.
  destruct (write_all d r true true true []) as [[[d' r'] calls]|] eqn:W.
  - apply all_written in W as (-> & ON & _ & K). unfold kind in K. rewrite G in K. cbn [andb negb] in K.
    destruct K as [(_ & -> & F)|(K & _)]; [|now destruct K].
    exists d'. repeat split; try assumption. rewrite ON; [exact O|]. intros E. exact (with_gz_neq (path_of r) (eq_sym E)).
  - apply C80_refused in W. contradiction.
Qed.
Print Assumptions C80_both_refuted.

Definition data_rp (n : bytes) : rp := mk_rp [bs "repo"; bs "rdiff-backup-data"] [n].
Definition none : dir := fun _ => None.
Example C80_example :
  let r := data_rp (bs "mirror_metadata.2024-01-01T00:00:00Z.snapshot") in
  let z := data_rp (bs "mirror_metadata.2024-01-01T00:00:00Z.snapshot.gz") in
  let recs := repeat (bs "File .") 250 in
  option_map (fun '(d', r', calls) => (r', calls, read d' (path_of r), read d' (path_of z))) (write_all none r true true true recs)
  = Some (z, [z], None, Some (concat recs)) /\
  option_map (fun '(d', r', calls) => (r', calls, read d' (path_of r), read d' (path_of z))) (write_all none r true true true [])
  = Some (r, [r], Some [], None) /\
  option_map (fun d' => read d' (path_of r)) (interrupted none r true false true recs)
  = Some (Some (concat (repeat (bs "File .") 200))) /\
  option_map (fun d' => d' (path_of z)) (interrupted none r true true true (firstn 99 recs)) = Some None /\
  option_map (fun d' => read d' (path_of z)) (recreate none (data_rp (bs "rdiff-backup.tmp.1")) z true recs)
  = Some (Some (concat recs)).
Proof. cbv zeta. repeat split; vm_compute; reflexivity. Qed.

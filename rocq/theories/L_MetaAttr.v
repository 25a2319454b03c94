(** Lemmas about the records of stdattr.py *)
From Coq Require Import List ZArith Bool Ascii Lia.
From Verif Require Import Base L_Base M_Quoting L_Quoting M_Iter L_Iter M_Rorp M_Meta S_Meta L_Meta.
Import List ListNotations.
Local Open Scope Z_scope.

Local Notation field := (bytes * bytes)%type.
Definition fline (fv : field) : bytes := bs "  " ++ fst fv ++ bs " " ++ snd fv.
Definition okf (fv : field) : Prop :=
  fst fv <> [] /\ forallb is_alnum (fst fv) = true /\ word (snd fv).

Lemma line_fline f v : line f v = fline (f, v) ++ [nl].
Proof. unfold line, fline. cbn [fst snd]. now rewrite <- !app_assoc. Qed.

Lemma span_app {A} (p : A -> bool) a b : forallb p a = true ->
  match b with [] => True | x :: _ => p x = false end -> span p (a ++ b) = (a, b).
Proof.
  intros Ha Hb. induction a as [|x a IH]; cbn.
  - destruct b as [|y b]; [reflexivity|]. cbn. now rewrite Hb.
  - cbn in Ha. apply andb_prop in Ha as [-> Ha]. now rewrite IH.
Qed.
Lemma alnum_not_space c : is_alnum c = true -> Ascii.eqb (chr 32) c = false.
Proof. destruct (Ascii.eqb_spec (chr 32) c) as [<-|]; [|reflexivity]. intros H. now vm_compute in H. Qed.
Lemma alnum_not_nl s : forallb is_alnum s = true -> ~ In nl s.
Proof. intros H Hi. rewrite forallb_forall in H. apply H in Hi. now vm_compute in Hi. Qed.

Lemma parse_word pre f v : forallb (Ascii.eqb (chr 32)) pre = true -> okf (f, v) ->
  parse_line (pre ++ f ++ bs " " ++ v) = Some (f, v).
Proof.
  intros Hp (H1 & H2 & H3 & H4). cbn [fst snd] in *. unfold parse_line.
  rewrite span_app; [|assumption|].
  - rewrite span_app; [|assumption|reflexivity].
    destruct f; [congruence|]. destruct v; [congruence|]. cbn. reflexivity.
  - destruct f as [|c f]; [congruence|]. cbn in H2. apply andb_prop in H2 as [H2 _]. cbn. now apply alnum_not_space.
Qed.
Lemma fline_one fv : okf fv -> one_line (fline fv).
Proof.
  intros (H1 & H2 & H3 & H4). unfold fline, one_line. rewrite !in_app_iff.
  intros [H|[H|[H|H]]]; [now vm_compute in H; intuition discriminate|now apply (alnum_not_nl _ H2)|vm_compute in H; intuition discriminate|now apply H4].
Qed.
Lemma split_text ls : Forall one_line ls -> split_on nl (text ls) = ls ++ [[]].
Proof.
  induction 1 as [|l ls H HF IH]; [reflexivity|]. rewrite text_cons. cbn [app].
  rewrite split_on_app by assumption. now rewrite IH.
Qed.
Lemma fields_flines fs tl : Forall okf fs -> fields_of (map fline fs ++ tl) = fs ++ fields_of tl.
Proof.
  induction 1 as [|[f v] fs H HF IH]; [reflexivity|]. cbn [map app fields_of]. unfold fline at 1. cbn [fst snd].
  rewrite parse_word by (auto; reflexivity). now rewrite IH.
Qed.

(** pieces of a record and their effect on the dictionary *)
Definition emits (o : option bytes) (up : dict -> dict) : Prop :=
  exists fs, o = Some (text (map fline fs)) /\ Forall okf fs
    /\ forall i d, fold_left add_field fs (Some (i, d)) = Some (i, up d).
Lemma emits_nil : emits (Some []) (fun d => d).
Proof. exists []. repeat split; auto. Qed.
Lemma emits_cat a b u v : emits a u -> emits b v -> emits (cat2 a b) (fun d => v (u d)).
Proof.
  intros (f1 & -> & H1 & H2) (f2 & -> & H3 & H4). exists (f1 ++ f2). cbn. rewrite map_app, text_app.
  split; [reflexivity|]. split; [now apply Forall_app|]. intros i d. now rewrite fold_left_app, H2, H4.
Qed.
Lemma emits_line f v up : okf (f, v) -> (forall i d, add_field (Some (i, d)) (f, v) = Some (i, up d)) ->
  emits (Some (line f v)) up.
Proof.
  intros H1 H2. exists [(f, v)]. cbn [map]. rewrite text_cons. cbn [text map concat].
  rewrite line_fline. repeat split; auto.
Qed.
Lemma dec_Z_word z : word (dec_Z z).
Proof.
  unfold word, dec_Z. destruct z as [|p|p].
  - split; [discriminate|]. vm_compute. intuition discriminate.
  - split; [apply dec_nonempty|]. apply digits_no_byte; [apply dec_digits|reflexivity].
  - split; [discriminate|]. intros [H|H]; [now vm_compute in H|]. revert H.
    apply digits_no_byte; [apply dec_digits|reflexivity].
Qed.
Definition fname (f : bytes) : bool := forallb is_alnum f && negb (beq_bytes f []).
Lemma fname_ok f v : fname f = true -> word v -> okf (f, v).
Proof.
  unfold fname. intros H Hv. apply andb_prop in H as [H1 H2]. apply negb_true_iff in H2.
  apply beq_bytes_false in H2. repeat split; auto; apply Hv.
Qed.
Lemma emits_int f k o z : fname f = true -> int_key f = Some k -> o = Some (VInt z) ->
  emits (int_line f o) (fun d => set d k (VInt z)).
Proof.
  intros H1 H2 ->. cbn [int_line]. apply emits_line; [apply fname_ok; auto using dec_Z_word|].
  intros i d. cbn [add_field]. now rewrite H2, parse_Z_dec_Z.
Qed.
Lemma emits_strv f k s : fname f = true -> int_key f = None -> str_key f = Some k ->
  a_name (VStr s) -> emits (Some (line f s)) (fun d => set d k (VStr s)).
Proof.
  intros H1 H2 H3 (H4 & H5 & H6). apply emits_line; [now apply fname_ok|].
  intros i d. cbn [add_field]. rewrite H2, H3. apply beq_bytes_false in H5, H6. now rewrite H5, H6.
Qed.
Definition name_of (o : option val) : val := match o with Some v => v | None => VNone end.
Lemma emits_name f k o : fname f = true -> int_key f = None -> str_key f = Some k ->
  absent_or (fun v => v = VNone \/ a_name v) o ->
  emits (name_line f o) (fun d => set d k (name_of o)).
Proof.
  intros H1 H2 H3 H4.
  assert (Hn : emits (Some (line f (bs ":"))) (fun d => set d k VNone)).
  { apply emits_line; [apply fname_ok; auto; split; [discriminate|vm_compute; intuition discriminate]|].
    intros i d. cbn. now rewrite H2, H3. }
  destruct o as [v|]; [|exact Hn]. destruct H4 as [->|H4]; [exact Hn|].
  destruct v as [| |s|]; try contradiction. destruct H4 as (Hw & H5 & H6).
  destruct s as [|c s]; [now destruct Hw|]. cbn [name_line name_of].
  apply emits_strv; auto. now repeat split; try apply Hw.
Qed.
Lemma emits_ext o u v : (forall d, u d = v d) -> emits o u -> emits o v.
Proof. intros H (fs & H1 & H2 & H3). exists fs. repeat split; auto. intros. now rewrite H3, H. Qed.

Definition opt_set (d : dict) (k : key) (o : option val) : dict := match o with Some v => set d k v | None => d end.

Lemma emits_alt d : (forall k, k = KMirrorname \/ k = KIncname -> absent_or (fun v => exists s, v = VStr s /\ word s) (d k)) ->
  emits (match d KMirrorname, d KIncname with
       | Some v, _ => str_line (bs "AlternateMirrorName") (Some v)
       | None, Some v => str_line (bs "AlternateIncrementName") (Some v)
       | None, None => Some []
       end)
   (fun e => match d KMirrorname, d KIncname with
             | Some v, _ => set e KMirrorname v
             | None, Some v => set e KIncname v
             | None, None => e end).
Proof.
  intros H. pose proof (H KMirrorname (or_introl eq_refl)) as H1. pose proof (H KIncname (or_intror eq_refl)) as H2.
  destruct (d KMirrorname) as [v|].
  - destruct H1 as (s & -> & Hs). cbn [str_line]. apply emits_line; [now apply fname_ok|reflexivity].
  - destruct (d KIncname) as [v|]; [|apply emits_nil].
    destruct H2 as (s & -> & Hs). cbn [str_line]. apply emits_line; [now apply fname_ok|reflexivity].
Qed.

Definition perms_of (d : dict) : val := match d KPerms with Some v => v | None => VInt 0 end.
Definition common_up (m : bool) (d : dict) (e : dict) : dict :=
  let e := if m then opt_set e KMtime (d KMtime) else e in
  let e := opt_set e KUid (d KUid) in
  let e := set e KUname (name_of (d KUname)) in
  let e := opt_set e KGid (d KGid) in
  let e := set e KGname (name_of (d KGname)) in
  let e := set e KPerms (perms_of d) in
  match d KMirrorname, d KIncname with
  | Some v, _ => set e KMirrorname v
  | None, Some v => set e KIncname v
  | None, None => e end.
Lemma emits_common m d : described d -> (m = true -> an_int (d KMtime)) ->
  emits (common_lines m d) (common_up m d).
Proof.
  intros D Hm. destruct (de_owner d D) as [[u Hu] [g Hg]].
  unfold common_lines, common_up. cbv zeta. rewrite Hu, Hg. cbn [opt_set].
  assert (H1 : emits (if m then int_line (bs "ModTime") (d KMtime) else Some [])
     (fun e => if m then opt_set e KMtime (d KMtime) else e)).
  { destruct m; [|apply emits_nil]. destruct (Hm eq_refl) as [t Ht]. rewrite Ht. cbn [opt_set].
    now apply emits_int. }
  assert (H2 := emits_int (bs "Uid") KUid _ u eq_refl eq_refl eq_refl).
  assert (H3 := emits_name (bs "Uname") KUname (d KUname) eq_refl eq_refl eq_refl (de_names d D _ (or_introl eq_refl))).
  assert (H4 := emits_int (bs "Gid") KGid _ g eq_refl eq_refl eq_refl).
  assert (H5 := emits_name (bs "Gname") KGname (d KGname) eq_refl eq_refl eq_refl (de_names d D _ (or_intror eq_refl))).
  assert (H6 : emits (int_line (bs "Permissions") (match d KPerms with Some v => Some v | None => Some (VInt 0) end))
                     (fun e => set e KPerms (perms_of d))).
  { pose proof (de_perms d D) as Hp. unfold perms_of. destruct (d KPerms) as [v|].
    - destruct Hp as [z Hz]. injection Hz as ->. now apply emits_int.
    - now apply emits_int. }
  assert (H7 := emits_alt d (de_alt d D)).
  pose proof (emits_cat _ _ _ _ H1 (emits_cat _ _ _ _ H2 (emits_cat _ _ _ _ H3 (emits_cat _ _ _ _ H4
     (emits_cat _ _ _ _ H5 (emits_cat _ _ _ _ H6 H7)))))) as H. exact H.
Qed.
Lemma isreg_typed d : isreg d = true <-> typed d (bs "reg").
Proof.
  unfold isreg, is_type, typed. destruct (d KType) as [[| |s|]|]; split; try congruence.
  - intros H. apply beq_bytes_true in H. now subst.
  - intros [= ->]. reflexivity.
Qed.
Lemma is_type_typed t d : is_type t d = true <-> typed d t.
Proof.
  unfold is_type, typed. destruct (d KType) as [[| |s|]|]; split; try congruence.
  - intros H. apply beq_bytes_true in H. now subst.
  - intros [= ->]. apply beq_bytes_refl.
Qed.
Definition reg_up (hl : bool) (d : dict) (e : dict) : dict :=
  let e := opt_set e KSize (d KSize) in
  let e := if linked_file hl d then opt_set (opt_set (opt_set e KNlink (d KNlink)) KInode (d KInode)) KDevloc (d KDevloc) else e in
  opt_set e KSha1 (d KSha1).
Lemma emits_reg hl d : described d -> typed d (bs "reg") -> emits (reg_lines hl d) (reg_up hl d).
Proof.
  intros D T. destruct (de_reg d D T) as ([s Hs] & Hsha & Hn & Hi).
  unfold reg_lines, reg_up. cbv zeta. rewrite Hs. cbn [opt_set].
  assert (H1 := emits_int (bs "Size") KSize _ s eq_refl eq_refl eq_refl).
  assert (H3 : emits (match d KSha1 with Some v => str_line (bs "SHA1Digest") (Some v) | None => Some [] end)
     (fun e => opt_set e KSha1 (d KSha1))).
  { destruct (d KSha1) as [v|]; [|apply emits_nil]. destruct v as [| |h|]; try contradiction.
    cbn [str_line opt_set]. now apply emits_strv. }
  refine (emits_cat _ _ _ (fun e => opt_set _ KSha1 (d KSha1)) H1 (emits_cat _ _ (fun e => if linked_file hl d then opt_set (opt_set (opt_set e KNlink (d KNlink)) KInode (d KInode)) KDevloc (d KDevloc) else e) _ _ H3)).
  unfold linked_file, getnumlinks. apply isreg_typed in T. rewrite T. destruct hl; [|apply emits_nil]. cbn [andb].
  destruct (d KNlink) as [v|]; [|apply emits_nil]. destruct Hn as [n Hn]. injection Hn as ->.
  destruct (Z.ltb_spec 1 n) as [L|L]; [|apply emits_nil].
  destruct (Hi n eq_refl L) as [[i Hi1] [dv Hd]]. rewrite Hi1, Hd. cbn [opt_set].
  pose proof (emits_cat _ _ _ _ (emits_int (bs "NumHardLinks") KNlink _ n eq_refl eq_refl eq_refl)
    (emits_cat _ _ _ _ (emits_int (bs "Inode") KInode _ i eq_refl eq_refl eq_refl)
      (emits_int (bs "DeviceLoc") KDevloc _ dv eq_refl eq_refl eq_refl))) as H. exact H.
Qed.

Definition body_of (hl : bool) (d : dict) : option bytes :=
  match d KType with
  | Some VNone => Some (line (bs "Type") (bs "None"))
  | Some (VStr t) =>
      cat2 (Some (line (bs "Type") t))
      (if beq_bytes t (bs "reg") then cat2 (reg_lines hl d) (common_lines true d)
       else if beq_bytes t (bs "None") then Some []
       else if beq_bytes t (bs "sym") then
         match d KLinkname with
         | Some (VStr l) => cat2 (Some (line (bs "SymData") (quote_path l))) (common_lines false d)
         | _ => None
         end
       else if beq_bytes t (bs "dev") then
         match d KDevnums with
         | Some (VDev c a b) =>
             cat2 (Some (line (bs "DeviceNum") (c ++ bs " " ++ dec_Z a ++ bs " " ++ dec_Z b)))
                  (common_lines false d)
         | _ => None
         end
       else common_lines true d)
  | _ => None
  end.
Lemma attr_record_body hl x : attr_record hl x =
  cat2 (Some (bs "File " ++ quote_path (index_path (r_index x)) ++ [nl])) (body_of hl (r_data x)).
Proof. reflexivity. Qed.

Lemma quote_path_ne s : s <> [] -> quote_path s <> [].
Proof. destruct s as [|c s]; [congruence|]. intros _. cbn [quote_path]. destruct (Ascii.eqb c nl); [discriminate|]. destruct (Ascii.eqb c bslash); discriminate. Qed.
Lemma dec_Z_no c z : is_digit c = false -> c <> chr 45 -> ~ In c (dec_Z z).
Proof.
  intros Hc Hm. unfold dec_Z. destruct z as [|p|p].
  - change (dec 0) with [chr 48]. intros [<-|[]]. now vm_compute in Hc.
  - apply digits_no_byte; [apply dec_digits|assumption].
  - intros [H|H]; [now apply Hm|]. revert H. apply digits_no_byte; [apply dec_digits|assumption].
Qed.

Ltac fin := unfold empty_dict; try reflexivity; try congruence;
  try match goal with |- context [match ?d ?k with Some _ => _ | None => _ end] => destruct (d k) end;
  try reflexivity; try congruence.

Lemma body_emits hl d : described d \/ nothing d ->
  exists up, emits (body_of hl d) up /\ forall k, up empty_dict k = stored hl d k.
Proof.
  intros [D|N].
  2:{ unfold nothing in N. unfold body_of, stored. rewrite N.
      exists (fun e => set e KType VNone). split; [|intros []; reflexivity].
      apply emits_line; [apply fname_ok; [reflexivity|split; [discriminate|vm_compute; intuition discriminate]]|reflexivity]. }
  destruct (de_type d D) as (t & T & Ht). unfold typed in T. unfold body_of, stored. rewrite T.
  assert (Htype : emits (Some (line (bs "Type") t)) (fun e => set e KType (VStr t))).
  { apply emits_strv; try reflexivity. cbn in Ht.
    repeat (destruct Ht as [<-|Ht]; [repeat split; try discriminate; vm_compute; intuition discriminate|]). contradiction. }
  assert (HU : forall e, (forall k, In k [KMtime; KUid; KGid; KUname; KGname; KPerms; KMirrorname; KIncname] -> e k = None) ->
     forall m, forall k, common_up m d e k = match k with
       | KMtime => if m then d KMtime else None
       | KUid => d KUid | KGid => d KGid
       | KUname => Some (name_of (d KUname)) | KGname => Some (name_of (d KGname))
       | KPerms => Some (perms_of d) | KMirrorname => d KMirrorname
       | KIncname => match d KMirrorname with None => d KIncname | Some _ => None end
       | _ => e k end).
  { intros e He m k. unfold common_up. cbv zeta.
    assert (He' : forall k, In k [KMtime; KUid; KGid; KUname; KGname; KPerms; KMirrorname; KIncname] -> e k = None) by assumption.
    destruct (d KMirrorname) as [v1|]; [|destruct (d KIncname) as [v2|]];
      destruct (d KUid) as [u|]; destruct (d KGid) as [g|]; destruct (d KMtime) as [mt|]; destruct m;
      destruct k; cbn; unfold set; cbn; try reflexivity; try (apply He; cbn; tauto). }
  assert (Hsym : issym d = beq_bytes t (bs "sym")) by (unfold issym, is_type; now rewrite T).
  assert (Hdev : is_type (bs "dev") d = beq_bytes t (bs "dev")) by (unfold is_type; now rewrite T).
  assert (Hreg : isreg d = beq_bytes t (bs "reg")) by (unfold isreg, is_type; now rewrite T).
  cbn in Ht. destruct Ht as [<-|[<-|[<-|[<-|[<-|[<-|[]]]]]]].
  - (* reg *)
    change (beq_bytes (bs "reg") (bs "reg")) with true. cbn iota.
    assert (Hm : an_int (d KMtime)) by (apply (de_mtime _ D); unfold typed; rewrite T; discriminate).
    eexists. split; [apply (emits_cat _ _ _ _ Htype (emits_cat _ _ _ _ (emits_reg hl d D T) (emits_common true d D (fun _ => Hm))))|].
    intros k. cbn beta. rewrite HU.
    + rewrite Hsym, Hdev. unfold name_of, perms_of, reg_up. rewrite Hreg. cbn [beq_bytes]. cbv zeta.
      change (beq_bytes (bs "reg") (bs "reg")) with true.
      change (beq_bytes (bs "reg") (bs "sym")) with false. change (beq_bytes (bs "reg") (bs "dev")) with false. cbn [orb].
      destruct (linked_file hl d); destruct (d KSize) eqn:?; destruct (d KSha1) eqn:?; destruct (d KNlink) eqn:?; destruct (d KInode) eqn:?; destruct (d KDevloc) eqn:?;
        destruct k; cbn; rewrite ?T; fin.
    + intros k' Hk. unfold reg_up. cbv zeta.
      destruct (linked_file hl d); destruct (d KSize); destruct (d KSha1); destruct (d KNlink); destruct (d KInode); destruct (d KDevloc);
      cbn in Hk; destruct Hk as [<-|[<-|[<-|[<-|[<-|[<-|[<-|[<-|[]]]]]]]]]; reflexivity.
  - (* dir *)
    cbn iota.
    assert (Hm : an_int (d KMtime)) by (apply (de_mtime _ D); unfold typed; rewrite T; discriminate).
    eexists. split; [apply (emits_cat _ _ _ _ Htype (emits_common true d D (fun _ => Hm)))|].
    intros k. cbn beta. rewrite HU.
    + unfold linked_file. rewrite Hsym, Hdev, Hreg, andb_false_r. unfold name_of, perms_of.
      destruct k; cbn; rewrite ?T; fin.
    + intros k' Hk. cbn in Hk; destruct Hk as [<-|[<-|[<-|[<-|[<-|[<-|[<-|[<-|[]]]]]]]]]; reflexivity.
  - cbn iota.
    assert (Hm : an_int (d KMtime)) by (apply (de_mtime _ D); unfold typed; rewrite T; discriminate).
    eexists. split; [apply (emits_cat _ _ _ _ Htype (emits_common true d D (fun _ => Hm)))|].
    intros k. cbn beta. rewrite HU.
    + unfold linked_file. rewrite Hsym, Hdev, Hreg, andb_false_r. unfold name_of, perms_of.
      destruct k; cbn; rewrite ?T; fin.
    + intros k' Hk. cbn in Hk; destruct Hk as [<-|[<-|[<-|[<-|[<-|[<-|[<-|[<-|[]]]]]]]]]; reflexivity.
  - cbn iota.
    assert (Hm : an_int (d KMtime)) by (apply (de_mtime _ D); unfold typed; rewrite T; discriminate).
    eexists. split; [apply (emits_cat _ _ _ _ Htype (emits_common true d D (fun _ => Hm)))|].
    intros k. cbn beta. rewrite HU.
    + unfold linked_file. rewrite Hsym, Hdev, Hreg, andb_false_r. unfold name_of, perms_of.
      destruct k; cbn; rewrite ?T; fin.
    + intros k' Hk. cbn in Hk; destruct Hk as [<-|[<-|[<-|[<-|[<-|[<-|[<-|[<-|[]]]]]]]]]; reflexivity.
  - (* sym *)
    destruct (de_sym d D T) as (l & Hl & Hne). 
    change (beq_bytes (bs "sym") (bs "reg")) with false in *. change (beq_bytes (bs "sym") (bs "None")) with false in *.
    change (beq_bytes (bs "sym") (bs "sym")) with true in *. change (beq_bytes (bs "sym") (bs "dev")) with false in *.
    cbn iota. rewrite Hl.
    assert (Hs : emits (Some (line (bs "SymData") (quote_path l))) (fun e => set e KLinkname (VStr l))).
    { apply emits_line; [apply fname_ok; [reflexivity|split; [now apply quote_path_ne|apply quote_path_no_nl]]|].
      intros i e. cbn [add_field]. change (int_key (bs "SymData")) with (@None key). change (str_key (bs "SymData")) with (@None key).
      cbn iota. change (beq_bytes (bs "SymData") (bs "File")) with false. change (beq_bytes (bs "SymData") (bs "SymData")) with true.
      cbn iota. now rewrite unquote_quote_path. }
    eexists. split; [apply (emits_cat _ _ _ _ Htype (emits_cat _ _ _ _ Hs (emits_common false d D (fun H => False_ind _ (diff_false_true H)))))|].
    intros k. cbn beta. rewrite HU.
    + unfold linked_file. rewrite Hsym, Hdev, Hreg, andb_false_r. unfold name_of, perms_of. cbn [orb].
      destruct k; cbn; rewrite ?T, ?Hl; fin.
    + intros k' Hk. cbn in Hk; destruct Hk as [<-|[<-|[<-|[<-|[<-|[<-|[<-|[<-|[]]]]]]]]]; reflexivity.
  - (* dev *)
    destruct (de_dev d D T) as (c & a & b & Hl & Hw & Hsp). 
    change (beq_bytes (bs "dev") (bs "reg")) with false in *. change (beq_bytes (bs "dev") (bs "None")) with false in *.
    change (beq_bytes (bs "dev") (bs "sym")) with false in *. change (beq_bytes (bs "dev") (bs "dev")) with true in *.
    cbn iota. rewrite Hl.
    assert (Hs : emits (Some (line (bs "DeviceNum") (c ++ bs " " ++ dec_Z a ++ bs " " ++ dec_Z b))) (fun e => set e KDevnums (VDev c a b))).
    { apply emits_line; [apply fname_ok; [reflexivity|split]|].
      - destruct Hw as [Hw _]. destruct c; [congruence|discriminate].
      - rewrite !in_app_iff. intros [H|[H|[H|[H|H]]]]; [now apply Hw| | | |];
          try (vm_compute in H; intuition discriminate); revert H; apply dec_Z_no; (reflexivity || discriminate).
      - intros i e. cbn [add_field]. change (int_key (bs "DeviceNum")) with (@None key). change (str_key (bs "DeviceNum")) with (@None key).
        cbn iota. change (beq_bytes (bs "DeviceNum") (bs "File")) with false. change (beq_bytes (bs "DeviceNum") (bs "SymData")) with false.
        change (beq_bytes (bs "DeviceNum") (bs "DeviceNum")) with true. cbn iota.
        change (bs " ") with [chr 32]. cbn [app]. rewrite split_on_app by assumption.
        rewrite split_on_app by (apply dec_Z_no; (reflexivity || discriminate)).
        rewrite split_on_nosep by (apply dec_Z_no; (reflexivity || discriminate)).
        now rewrite !parse_Z_dec_Z. }
    eexists. split; [apply (emits_cat _ _ _ _ Htype (emits_cat _ _ _ _ Hs (emits_common false d D (fun H => False_ind _ (diff_false_true H)))))|].
    intros k. cbn beta. rewrite HU.
    + unfold linked_file. rewrite Hsym, Hdev, Hreg, andb_false_r. unfold name_of, perms_of. cbn [orb].
      destruct k; cbn; rewrite ?T, ?Hl; fin.
    + intros k' Hk. cbn in Hk; destruct Hk as [<-|[<-|[<-|[<-|[<-|[<-|[<-|[<-|[]]]]]]]]]; reflexivity.
Qed.

(** the index *)
Lemma bs_dot_no c : c <> chr 46 -> ~ In c (bs ".").
Proof. intros H [E|[]]. now apply H. Qed.
Lemma quote_dot s : quote_path s = bs "." -> s = bs ".".
Proof. intros H. apply quote_path_inj. now rewrite H. Qed.
Lemma join_dot i : i <> [] -> (forall c, In c i -> c <> [] /\ ~ In (chr 47) c) ->
  join_with (bs "/") i = bs "." -> i = [bs "."].
Proof.
  intros Hne Hc E. assert (H : split_on (chr 47) (join_with [chr 47] i) = i).
  { apply split_join; [assumption|]. intros c Hi. now apply Hc. }
  change (bs "/") with [chr 47] in E. rewrite E in H. rewrite <- H. reflexivity.
Qed.
Lemma attr_index_path i : good_path i -> attr_index (quote_path (index_path i)) = i.
Proof.
  intros (H1 & H2). destruct i as [|c i]; [reflexivity|]. unfold attr_index, index_path.
  set (j := c :: i) in *.
  destruct (beq_bytes (quote_path (join_with (bs "/") j)) (bs ".")) eqn:E.
  - apply beq_bytes_true, quote_dot, join_dot in E; [contradiction|discriminate|assumption].
  - rewrite unquote_quote_path. change (bs "/") with [chr 47]. apply split_join; [discriminate|].
    intros x Hx. now apply H2.
Qed.
Lemma index_path_ne i : good_path i -> index_path i <> [].
Proof.
  intros (_ & H2). destruct i as [|c i]; [discriminate|]. unfold index_path.
  destruct (H2 c (or_introl eq_refl)) as [Hc _]. destruct c as [|a c]; [congruence|].
  destruct i; discriminate.
Qed.

Definition HDR := bs "File ".
Lemma HDR_ne : HDR <> []. Proof. discriminate. Qed.
Lemma HDR_nl : ~ In nl HDR. Proof. vm_compute. intuition discriminate. Qed.
Definition is_rec := is_record HDR.

Lemma header_index i : good_path i ->
  rec_index HDR attr_index (HDR ++ quote_path (index_path i), []) = i.
Proof.
  intros H. unfold rec_index. cbn [fst]. rewrite (skipn_app (length HDR)), skipn_all, Nat.sub_diag. cbn [app].
  rewrite skipn_O. now apply attr_index_path.
Qed.
Lemma attr_record_spec hl x r : good_path (r_index x) -> described (r_data x) \/ nothing (r_data x) ->
  attr_record hl x = Some r ->
  exists rc, r = rec_text rc /\ is_rec rc /\ rec_index HDR attr_index rc = r_index x
    /\ exists y, attr_parse r = Some y /\ stored_as hl x y.
Proof.
  intros Hp Hd. rewrite attr_record_body. destruct (body_emits hl _ Hd) as (up & (fs & E & Hf & HU) & HS).
  rewrite E. cbn [cat2]. intros H. 
  set (q := quote_path (index_path (r_index x))) in *.
  assert (Hr : r = rec_text (HDR ++ q, map fline fs)).
  { injection H as <-. unfold rec_text, rec_lines. cbn [fst snd]. rewrite text_cons. unfold HDR.
    now rewrite <- !app_assoc. }
  clear H.
  assert (Hq : one_line q) by (apply quote_path_no_nl).
  assert (Hh : one_line (HDR ++ q)).
  { unfold one_line. rewrite in_app_iff. intros [H|H]; [now apply HDR_nl|now apply Hq]. }
  assert (Hrec : is_rec (HDR ++ q, map fline fs)).
  { split; [|split]; cbn [fst snd].
    - apply starts_with_spec. now exists q.
    - assumption.
    - apply Forall_map. eapply Forall_impl; [|exact Hf]. intros fv Hfv. split; [now apply fline_one|].
      unfold fline. reflexivity. }
  exists (HDR ++ q, map fline fs). split; [assumption|]. split; [assumption|]. split.
  { unfold rec_index. cbn [fst]. exact (header_index (r_index x) Hp). }
  exists (mk_rorp (r_index x) (up empty_dict)). split; [|split; [reflexivity|exact HS]].
  rewrite Hr. unfold attr_parse, rec_text, rec_lines. cbn [fst snd].
  rewrite split_text.
  2:{ constructor; [assumption|]. apply Forall_map. eapply Forall_impl; [|exact Hf]. intros; now apply fline_one. }
  cbn [app fields_of].
  assert (Hpl : parse_line (HDR ++ q) = Some (bs "File", q)).
  { apply (parse_word [] (bs "File") q); [reflexivity|]. apply fname_ok; [reflexivity|]. split; [|exact Hq].
    apply quote_path_ne, index_path_ne, Hp. }
  rewrite Hpl, fields_flines by assumption. change (fields_of [[]]) with (@nil field). rewrite app_nil_r.
  cbn [fold_left]. change (add_field (Some (None, empty_dict)) (bs "File", q)) with (Some (Some (attr_index q), empty_dict)).
  rewrite HU. unfold q. rewrite attr_index_path by assumption.
  assert (Hex : existsb (has (up empty_dict)) all_keys = true).
  { cbn [existsb all_keys]. replace (has (up empty_dict) KType) with true; [reflexivity|].
    symmetry. unfold has. rewrite HS. unfold stored. destruct Hd as [D|N].
    - destruct (de_type _ D) as (t & T & _). unfold typed in T. now rewrite T.
    - unfold nothing in N. now rewrite N. }
  now rewrite Hex.
Qed.
(** every such description can be written *)
Lemma attr_record_some hl x : described (r_data x) \/ nothing (r_data x) -> exists r, attr_record hl x = Some r.
Proof.
  intros Hd. rewrite attr_record_body. destruct (body_emits hl _ Hd) as (up & (fs & E & _) & _). rewrite E.
  eexists. reflexivity.
Qed.

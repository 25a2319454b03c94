(** * The completion of command lines: "rdiff-backup complete".

    /repo/src/rdiffbackup/actions/complete.py:63-259.

    Simplified: an argparse parser is its options, its sub-parsers and the nargs of
    the argument "locations" (what _get_options_dict, 240-259, takes out of it); a word
    is a byte string; the set of the options is a list without repetition, and the order
    of options equal but for their dashes is the one of the parser. *)
From Coq Require Import List ZArith Bool Ascii Arith.
From Verif Require Import Base.
Import List ListNotations.

(** what _get_matching_options looks at in an option (199-216): its type ([None]: no
    attribute type, or None), its choices and its metavar *)
Inductive otype : Type := TBool | TStr | TFileType | TOther.
Record action : Type := mk_action { a_type : option otype; a_choices : list bytes; a_metavar : option bytes }.
(** nargs of "locations" (232-234) *)
Inductive nargs : Type := NStar | NPlus | NOpt | NNum (n : nat).
Inductive parser : Type := Parser (opts : list (bytes * action)) (subs : list (bytes * parser)) (locs : option nargs).
Definition p_opts (p : parser) := let 'Parser o _ _ := p in o.
Definition p_subs (p : parser) := let 'Parser _ s _ := p in s.
Definition p_locs (p : parser) := let 'Parser _ _ l := p in l.

Fixpoint get {A} (k : bytes) (d : list (bytes * A)) : option A :=
  match d with
  | [] => None
  | (k', v) :: r => if beq_bytes k' k then Some v else get k r
  end.
Definition mem {A} (k : bytes) (d : list (bytes * A)) : bool := existsb (fun e => beq_bytes (fst e) k) d.

(** bytes.endswith *)
Definition ends_with (suf s : bytes) : bool := starts_with (rev suf) (rev s).
(** 227: the key of the sorting, x.replace("-", "") *)
Definition key (x : bytes) : bytes := filter (fun c => negb (Ascii.eqb c "-")) x.
Fixpoint le_b (a b : bytes) : bool :=
  match a, b with
  | [], _ => true
  | _, [] => false
  | x :: a', y :: b' => if (ord x <? ord y)%N then true else if (ord y <? ord x)%N then false else le_b a' b'
  end.
Fixpoint insert (x : bytes) (l : list bytes) : list bytes :=
  match l with
  | [] => [x]
  | y :: r => if le_b (key x) (key y) then x :: l else y :: insert x r
  end.
Definition sorted (l : list bytes) : list bytes := fold_right insert [] l.

(** 199-216: the option has a parameter, and what is offered for it *)
Definition parameter (a : action) : option (list bytes) :=
  match a_type a with
  | None | Some TBool => None
  | Some t =>
      Some (match a_choices a with
            | [] => match t, a_metavar a with
                    | TFileType, _ => [bs "::file::"]
                    | TStr, Some m => if ends_with (bs "_FILE") m then [bs "::file::"] else []
                    | _, _ => []
                    end
            | c => c
            end)
  end.

(** 228-237: whether a file may be named at the cursor; [None]: TypeError (the
    subtraction of 234 with "?") *)
Definition wants_file (l : option nargs) (n cword : nat) : option bool :=
  match l with
  | None => Some false
  | Some NStar | Some NPlus => Some true
  | Some NOpt => if (n - 1 <=? cword)%nat then Some true else None
  | Some (NNum k) => Some (n - k <=? cword)%nat
  end.

(** 189-238 _get_matching_options.  The options may be sub-parsers, which have no
    type.  [None]: an exception (options_set is not bound without unique, 222-227). *)
Definition matching (options : list (bytes * option action)) (locs : option nargs)
  (words : list bytes) (cword : nat) (unique : bool) : option (list bytes) :=
  let word := nth cword words [] in
  let prev_word := nth (cword - 1) words [] in
  match match get prev_word options with Some (Some a) => parameter a | _ => None end with
  | Some l => Some l
  | None =>
      let options := match word with
                     | [] => map fst options
                     | _ => filter (starts_with word) (map fst options)
                     end in
      let is_matched := match word, options with
                        | _ :: _, _ :: _ => true
                        | _, _ => false
                        end in
      if unique then
        let options_set := filter (fun o => negb (existsb (beq_bytes o) words)
                                            || match word with [] => false | _ => beq_bytes o word end) options in
        let options_list := sorted options_set in
        if is_matched then Some options_list
        else match wants_file locs (List.length words) cword with
             | Some true => Some (options_list ++ [bs "::file::"])
             | Some false => Some options_list
             | None => None
             end
      else None
  end.

Definition as_opts (o : list (bytes * action)) : list (bytes * option action) :=
  map (fun e => (fst e, Some (snd e))) o.
Definition as_subs (s : list (bytes * parser)) : list (bytes * option action) :=
  map (fun e => (fst e, None)) s.

(** 140-144, 171-175: the first word which is a sub-parser *)
Fixpoint action_idx {A} (subs : list (bytes * A)) (words : list bytes) : option nat :=
  match words with
  | [] => None
  | w :: r => if mem w subs then Some 0%nat else option_map S (action_idx subs r)
  end.

(** 158-187 _get_possible_sub_options; the result None of Python, when the cursor is
    before the sub-action, makes the loop of the caller fail *)
Fixpoint sub_options (p : parser) (words : list bytes) (cword : nat) (unique : bool) : option (list bytes) :=
  match p with
  | Parser opts subs locs =>
      let here := matching (as_opts opts ++ as_subs subs) locs words cword unique in
      if (List.length words =? 2)%nat then here
      else match action_idx subs words with
           | Some i =>
               let w := nth i words [] in
               if (cword =? i)%nat then Some [w]
               else if (i <? cword)%nat then
                 (fix find (l : list (bytes * parser)) :=
                    match l with
                    | [] => None
                    | (n, q) :: r => if beq_bytes n w then sub_options q (skipn i words) (cword - i) unique else find r
                    end) subs
               else None
           | None => here
           end
  end.

(** 115-156 _get_possible_options *)
Definition possible_options (p : parser) (words : list bytes) (cword : Z) (unique : bool) : option (list bytes) :=
  let cword := if (cword <? 0)%Z then (cword + Z.of_nat (List.length words))%Z else cword in
  if (cword <? 0)%Z then Some []
  else if (List.length words =? 1)%nat || (cword =? 0)%Z then Some [nth 0 words []]
  else
    let c := Z.to_nat cword in
    let both := matching (as_opts (p_opts p) ++ as_subs (p_subs p)) (p_locs p) words c unique in
    if (List.length words =? 2)%nat then both
    else match action_idx (p_subs p) words with
         | None => both
         | Some i =>
             let w := nth i words [] in
             if (c =? i)%nat then Some [w]
             else if (i <? c)%nat then
               match get w (p_subs p) with
               | Some q => sub_options q (skipn i words) (c - i) unique
               | None => None
               end
             else matching (as_opts (p_opts p)) (p_locs p) words c unique
         end.

(** 63-86 pre_check: there are words, and words[cword] exists *)
Definition pre_check (words : list bytes) (cword : Z) : bool :=
  let n := Z.of_nat (List.length words) in
  negb (List.length words =? 0)%nat && ((- n <=? cword) && (cword <? n))%Z.

(** the action (88-113): the words printed, [None] after an exception *)
Definition complete (p : parser) (words : list bytes) (cword : Z) (unique : bool) : option (list bytes) :=
  if pre_check words cword then possible_options p words cword unique else Some [].

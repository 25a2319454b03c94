(** * Block size of signatures (src/rdiff_backup/Rdiff.py) *)
From Coq Require Import ZArith.
Local Open Scope Z_scope.

(** int.bit_length *)
Definition bit_length (n : Z) : Z := if n =? 0 then 0 else Z.log2 n + 1.

(** Rdiff.py:101-115 _find_blocksize; file lengths are not negative *)
Definition find_blocksize (file_len : Z) : Z :=
  if file_len <? 10240 then 64
  else Z.shiftl (Z.shiftr file_len (bit_length file_len / 2 + 4)) 4.

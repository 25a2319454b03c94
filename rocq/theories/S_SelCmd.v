(** * Specification: the selection options of the manual page *)
From Coq Require Import List NArith ZArith Bool Ascii.
From Verif Require Import Base M_Select M_SelCmd.
Import List ListNotations.

Inductive source := FromFile (name : bytes) | FromStdin.
Inductive what :=
| Glob (g : bytes) | Regexp (r : bytes) | IfPresent (name : bytes)
| DeviceFiles | Fifos | Sockets | SymbolicLinks | SpecialFiles | OtherFilesystems
| Filelist (s : source) | GlobbingFilelist (s : source).
Inductive request := Include (w : what) | Exclude (w : what) | MinSize (n : N) | MaxSize (n : N).

(** as it is written on the command line (docs/rdiff-backup.1.adoc:321-390) *)
Definition spelling (r : request) : bytes * option bytes :=
  match r with
  | Include (Glob g) => (bs "--include", Some g)
  | Exclude (Glob g) => (bs "--exclude", Some g)
  | Include (Regexp x) => (bs "--include-regexp", Some x)
  | Exclude (Regexp x) => (bs "--exclude-regexp", Some x)
  | Include (IfPresent n) => (bs "--include-if-present", Some n)
  | Exclude (IfPresent n) => (bs "--exclude-if-present", Some n)
  | Include DeviceFiles => (bs "--include-device-files", None)
  | Exclude DeviceFiles => (bs "--exclude-device-files", None)
  | Include Fifos => (bs "--include-fifos", None)
  | Exclude Fifos => (bs "--exclude-fifos", None)
  | Include Sockets => (bs "--include-sockets", None)
  | Exclude Sockets => (bs "--exclude-sockets", None)
  | Include SymbolicLinks => (bs "--include-symbolic-links", None)
  | Exclude SymbolicLinks => (bs "--exclude-symbolic-links", None)
  | Include SpecialFiles => (bs "--include-special-files", None)
  | Exclude SpecialFiles => (bs "--exclude-special-files", None)
  | Include OtherFilesystems => (bs "--include-other-filesystems", None)
  | Exclude OtherFilesystems => (bs "--exclude-other-filesystems", None)
  | Include (Filelist (FromFile f)) => (bs "--include-filelist", Some f)
  | Exclude (Filelist (FromFile f)) => (bs "--exclude-filelist", Some f)
  | Include (Filelist FromStdin) => (bs "--include-filelist-stdin", None)
  | Exclude (Filelist FromStdin) => (bs "--exclude-filelist-stdin", None)
  | Include (GlobbingFilelist (FromFile f)) => (bs "--include-globbing-filelist", Some f)
  | Exclude (GlobbingFilelist (FromFile f)) => (bs "--exclude-globbing-filelist", Some f)
  | Include (GlobbingFilelist FromStdin) => (bs "--include-globbing-filelist-stdin", None)
  | Exclude (GlobbingFilelist FromStdin) => (bs "--exclude-globbing-filelist-stdin", None)
  | MinSize n => (bs "--min-file-size", Some (dec n))
  | MaxSize n => (bs "--max-file-size", Some (dec n))
  end.

(** what it means, as a criterion of M_Select (whose effect on files is the subject of
    C15, C16 and C36); [None]: it can't be read *)
Definition text_of (env : cenv) (s : source) : option bytes :=
  match s with FromFile f => ce_file env f | FromStdin => Some (ce_stdin env) end.
Definition meaning_of (compile : bytes -> option (bytes -> bool)) (env : cenv) (inc : bool) (w : what) : option sopt :=
  match w with
  | Glob g => Some (OGlob g inc)
  | Regexp x => option_map (fun m => ORegexp m inc) (compile x)
  | IfPresent n => Some (OPresent n inc)
  | DeviceFiles => Some (OPred PDev inc)
  | Fifos => Some (OPred PFifo inc)
  | Sockets => Some (OPred PSock inc)
  | SymbolicLinks => Some (OPred PSym inc)
  | SpecialFiles => Some (OPred PSpecial inc)
  | OtherFilesystems => if inc then None else Some OOtherFs
  | Filelist s => option_map (fun c => OFilelist c inc) (text_of env s)
  | GlobbingFilelist s => option_map (fun c => OGlobFilelist c inc) (text_of env s)
  end.
Definition meaning compile env (r : request) : option sopt :=
  match r with
  | Include w => meaning_of compile env true w
  | Exclude w => meaning_of compile env false w
  | MinSize n => Some (OSize (Z.of_N n) false)
  | MaxSize n => Some (OSize (Z.of_N n) true)
  end.

(** documented, but not supported *)
Definition unsupported (r : request) : bool :=
  match r with
  | Include DeviceFiles | Include Fifos | Include Sockets | Include OtherFilesystems => true
  | _ => false
  end.
Definition reads_stdin (r : request) : bool :=
  match r with
  | Include (Filelist FromStdin) | Exclude (Filelist FromStdin)
  | Include (GlobbingFilelist FromStdin) | Exclude (GlobbingFilelist FromStdin) => true
  | _ => false
  end.
Definition stdin_readers (l : list request) : nat := length (filter reads_stdin l).
(** selects by the name or path *)
Definition by_name (r : request) : bool :=
  match r with
  | Include w | Exclude w =>
      match w with Glob _ | Regexp _ | Filelist _ | GlobbingFilelist _ => true | _ => false end
  | _ => false
  end.

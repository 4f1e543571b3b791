(** Model of the POSIX path functions of Python's standard library that edulint uses
    ([os.path], [pathlib.PurePosixPath]) and of edulint's own path helpers. *)
From Coq Require Import String Ascii List Bool Arith.
From Verif Require Import Base.
Import ListNotations.
Local Open Scope string_scope.
Local Open Scope list_scope.

(** The separator of paths, edulint/config/file_config.py:70. *)
Definition sl : ascii := "/".

(** [os.path.isabs] (posixpath): used in edulint/config/file_config.py:66, edulint/linting/linting.py:25. *)
Definition isabs (p : string) : bool := String.prefix "/" p.

(** [str.endswith("/")], edulint/config/file_config.py:70. *)
Fixpoint ends_slash (s : string) : bool :=
  match s with
  | EmptyString => false
  | String c EmptyString => Ascii.eqb c sl
  | String _ r => ends_slash r
  end.

(** [os.path.join(a, b)] (posixpath), edulint/config/file_config.py:70, config.py:530. *)
Definition pjoin (a b : string) : string :=
  if isabs b then b
  else if String.eqb a "" || ends_slash a then (a ++ b)%string
  else (a ++ String sl b)%string.

(** [p[:p.rfind("/") + 1]]: the part up to and including the last slash, edulint/config/file_config.py:70. *)
Fixpoint upto_last_slash (p : string) : string :=
  match p with
  | EmptyString => EmptyString
  | String c r =>
      if has_char sl (String c r) then String c (upto_last_slash r) else EmptyString
  end.
(** [head == '/' * len(head)], in [os.path.dirname], edulint/config/file_config.py:70. *)
Fixpoint all_slashes (s : string) : bool :=
  match s with EmptyString => true | String c r => Ascii.eqb c sl && all_slashes r end.
(** [s.rstrip("/")], edulint/config/file_config.py:70. *)
Fixpoint rstrip_slash (s : string) : string :=
  match s with
  | EmptyString => EmptyString
  | String c r => if all_slashes (String c r) then EmptyString else String c (rstrip_slash r)
  end.
(** [os.path.dirname] (posixpath), edulint/config/file_config.py:70. *)
Definition dirname (p : string) : string :=
  let head := upto_last_slash p in
  if all_slashes head then head else rstrip_slash head.

(** [os.path.basename] (posixpath), edulint/edulint.py:197: the part after the last slash. *)
Definition basename (p : string) : string := last (split_on sl p) "".

(** The loop of [os.path.normpath] (posixpath); [acc] is [new_comps] reversed, edulint/config/file_config.py:70. *)
Fixpoint norm_comps (abs : bool) (comps acc : list string) : list string :=
  match comps with
  | [] => rev acc
  | c :: r =>
      if String.eqb c "" || String.eqb c "." then norm_comps abs r acc
      else if negb (String.eqb c "..")
              || (negb abs && match acc with [] => true | _ => false end)
              || match acc with t :: _ => String.eqb t ".." | [] => false end
      then norm_comps abs r (c :: acc)
      else norm_comps abs r (tl acc)
  end.
(** Number of leading slashes kept by [os.path.normpath], edulint/config/file_config.py:70. *)
Definition initial_slashes (p : string) : nat :=
  if String.prefix "//" p && negb (String.prefix "///" p) then 2
  else if String.prefix "/" p then 1 else 0.
(** A number of slashes, in [os.path.normpath], edulint/config/file_config.py:70. *)
Fixpoint slashes (n : nat) : string := match n with O => "" | S m => String sl (slashes m) end.
(** [os.path.normpath] (posixpath), edulint/config/file_config.py:70. *)
Definition normpath (p : string) : string :=
  if String.eqb p "" then "."
  else let n := initial_slashes p in
       let r := (slashes n ++ join sl (norm_comps (negb (Nat.eqb n 0)) (split_on sl p) []))%string in
       if String.eqb r "" then "." else r.
(** [os.path.abspath] (posixpath) in working directory [cwd], edulint/linting/linting.py:25. *)
Definition abspath (cwd p : string) : string :=
  normpath (if isabs p then p else pjoin cwd p).

(** The non-empty components used by [os.path.relpath] (posixpath), edulint/linting/linting.py:25. *)
Definition rel_comps (p : string) : list string := filter (fun c => negb (String.eqb c "")) (split_on sl p).
(** Length of [os.path.commonprefix] of two lists, edulint/linting/linting.py:25. *)
Fixpoint common (a b : list string) : nat :=
  match a, b with
  | x :: a', y :: b' => if String.eqb x y then S (common a' b') else 0
  | _, _ => 0
  end.
(** [os.path.relpath(p)] (posixpath) in working directory [cwd], edulint/linting/linting.py:25. *)
Definition relpath (cwd p : string) : string :=
  let start := rel_comps (abspath cwd ".") in
  let path := rel_comps (abspath cwd p) in
  let i := common start path in
  let rel := repeat ".." (List.length start - i) ++ skipn i path in
  match rel with [] => "." | _ => join sl rel end.

(** edulint/linting/linting.py:24-25, [get_proper_path]. *)
Definition get_proper_path (cwd p : string) : string :=
  if isabs p then abspath cwd p else relpath cwd p.

(** edulint/config/file_config.py:16,88-89: [_only_acceptable_chars]. *)
Definition acceptable (c : ascii) : bool :=
  let n := nat_of_ascii c in
  ((97 <=? n) && (n <=? 122) || (65 <=? n) && (n <=? 90) || (48 <=? n) && (n <=? 57)
   || Ascii.eqb c "-" || Ascii.eqb c "_")%nat.
(** [only_acceptable_chars], edulint/config/file_config.py:88-89. *)
Fixpoint only_acceptable_chars (s : string) : bool :=
  match s with EmptyString => true | String c r => acceptable c && only_acceptable_chars r end.

(** edulint/config/file_config.py:33-36, [ConfigFileType]. *)
Inductive config_file_type := REMOTE | LOCAL | PACKAGED.

(** edulint/config/file_config.py:54-61, [get_config_type]. *)
Definition get_config_type (p : string) : config_file_type :=
  if String.prefix "http://" p || String.prefix "https://" p then REMOTE
  else if only_acceptable_chars p then PACKAGED
  else LOCAL.

(** edulint/config/file_config.py:64-70, [get_path_relative_to]; [isdir] is the file system's
    answer to [os.path.isdir], [cwd] the working directory. *)
Definition get_path_relative_to (cwd : string) (isdir : string -> bool) (filepath parent : string) : res string :=
  match get_config_type filepath, isabs filepath with
  | LOCAL, false =>
      if isdir parent then Raise AssertionError
      else Ok (abspath cwd (pjoin (dirname parent) filepath))
  | _, _ => Ok filepath
  end.

(** The files that are searched for forbidden comments. *)
From Coq Require Import String Ascii List Bool Arith.
From Verif Require Import Base ConfigModel PathModel ConfigFileModel MagicModel.
Import ListNotations.
Local Open Scope string_scope.
Local Open Scope list_scope.

(** [s.endswith(p)], edulint/linting/nonparsing_checkers.py:28. *)
Fixpoint ends_with (p s : string) : bool := String.eqb s p || match s with EmptyString => false | String _ r => ends_with p r end.
(** The paths below one path that end with [.py]; what is found at a path is a [node], as for configurations. edulint/linting/nonparsing_checkers.py:25-31. *)
Fixpoint below (path : string) (t : node) : list string :=
  match t with
  | File => if ends_with ".py" path then [path] else []
  | Dir es => (fix entries (l : list (string * node)) : list string := match l with [] => [] | (name, t) :: r => below (pjoin path name) t ++ entries r end) es
  end.
(** [to_file_paths(files_or_dirs)], edulint/linting/nonparsing_checkers.py:24-31. *)
Definition to_file_paths (files : list (string * node)) : list string := flat_map (fun f => below (pjoin "" (fst f)) (snd f)) files.
(** [report_infile_config] with the search for files; [contents] are the lines of the files. edulint/linting/nonparsing_checkers.py:54-56. *)
Definition report_all (contents : string -> list string) (files : list (string * node)) (ignore : list string) : list magic :=
  report_infile_config (map (fun path => (path, contents path)) (to_file_paths files)) ignore.

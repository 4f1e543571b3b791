(** Files in directories. *)
From Coq Require Import String List.
From Verif Require Import PathModel ConfigFileModel.
Import ListNotations.
Local Open Scope string_scope.
Local Open Scope list_scope.

(** From a path, going through directories, a file is reached at another one. *)
Inductive reaches : node -> string -> string -> Prop :=
| reaches_here path : reaches File path path
| reaches_in es name t path q : In (name, t) es -> reaches t (pjoin path name) q -> reaches (Dir es) path q.
(** A file is at a path, in one of the files and directories that are given. *)
Definition given (files : list (string * node)) (q : string) : Prop := exists p t, In (p, t) files /\ reaches t p q.

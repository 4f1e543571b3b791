(** What a path denotes: the place reached by following its components. Symbolic links are not
    modelled, so '..' always leads to the parent. *)
From Coq Require Import String Ascii List Bool.
From Verif Require Import Base PathModel.
Import ListNotations.
Local Open Scope string_scope.
Local Open Scope list_scope.

(** Following one component from a place. A place is the list of directory names from the innermost
    to the outermost; the root is the empty list. *)
Definition follow (place : list string) (c : string) : list string :=
  if String.eqb c "" || String.eqb c "." then place
  else if String.eqb c ".." then tl place
  else c :: place.
Definition walk (place : list string) (p : string) : list string :=
  fold_left follow (split_on "/" p) place.

(** The place a path denotes when the working directory is [cwd]. *)
Definition place (cwd p : string) : list string :=
  if String.prefix "/" p then walk [] p else walk (walk [] cwd) p.

(** The names of the configurations shipped with edulint consist of these characters. *)
Definition name_chars : list ascii :=
  list_ascii_of_string "abcdefghijklmnopqrstuvwxyzABCDEFGHIJKLMNOPQRSTUVWXYZ0123456789-_".
Definition packaged_name (p : string) : Prop := forall c, In c (list_ascii_of_string p) -> In c name_chars.
Definition url (p : string) : Prop := exists r, p = ("http://" ++ r)%string \/ p = ("https://" ++ r)%string.

(** [d] is the directory part of [p]: everything up to and including the last slash. *)
Definition directory_part (p d : string) : Prop :=
  exists b, p = (d ++ b)%string /\ has_char "/" b = false /\ (d = "" \/ exists e, d = (e ++ "/")%string).

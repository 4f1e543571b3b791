(** What the linting pipeline is supposed to do, stated without its functions. *)
From Coq Require Import String Ascii List Bool Arith ZArith Permutation.
From Verif Require Import Base ConfigModel PathModel PathSpec ConfigFileModel LintModel.
Import ListNotations.
Local Open Scope string_scope.
Local Open Scope list_scope.

(** [r] lists exactly the elements of [l] satisfying [P], in the order of [l]. *)
Inductive picks {A} (P : A -> Prop) : list A -> list A -> Prop :=
| picks_nil : picks P [] []
| picks_keep : forall a l r, P a -> picks P l r -> picks P (a :: l) (a :: r)
| picks_drop : forall a l r, ~ P a -> picks P l r -> picks P (a :: l) r.

(** ** Overriding *)

Definition same_line (p q : problem) : Prop := path p = path q /\ line p = line q.

(** Some reported problem on the same line has a code overriding that of [p]. *)
Definition overridden (table : dict (list string)) (problems : list problem) (p : problem) : Prop :=
  exists q codes, In q problems /\ same_line q p /\ dget (code p) table = Some codes /\ In (code q) codes.

(** No code overrides itself through a chain: codes have ranks and are overridden from below. *)
Definition well_founded_table (table : dict (list string)) : Prop :=
  exists rank : string -> nat, forall c codes d,
    dget c table = Some codes -> In d codes -> rank d < rank c.

(** ** Tweaking *)

(** [q] is [p] up to the message text. *)
Definition same_but_text (p q : problem) : Prop :=
  source p = source q /\ enabled_by p = enabled_by q /\ path p = path q /\ line p = line q /\
  column p = column q /\ code p = code q /\ end_line p = end_line q /\ end_column p = end_column q /\
  symbol p = symbol q.

(** [r] is [l] with some problems left out and some texts changed. *)
Inductive thinned : list problem -> list problem -> Prop :=
| thin_nil : thinned [] []
| thin_keep : forall p q l r, same_but_text p q -> thinned l r -> thinned (p :: l) (q :: r)
| thin_drop : forall p l r, thinned l r -> thinned (p :: l) r.

(** ** Order *)

(** The names a path is made of, and whether it starts from the root; two leading slashes are a
    root of their own. *)
Definition names (p : string) : list string :=
  filter (fun c => negb (String.eqb c "") && negb (String.eqb c ".")) (split_on "/" p).
Inductive start := Here | Root | DoubleRoot.
Definition start_of (p : string) : start :=
  match p with
  | String "/" (String "/" (String "/" _)) => Root
  | String "/" (String "/" _) => DoubleRoot
  | String "/" _ => Root
  | _ => Here
  end.
(** [p] is spelled as [fd] or as something below it. *)
Definition covers (fd p : string) : Prop :=
  start_of fd = start_of p /\ exists more, names p = names fd ++ more.

Definition mentions (w p : string) : Prop := exists a b, lower p = (a ++ w ++ b)%string.
Definition outside_files (p : string) : Prop := mentions "command line" p \/ mentions "configuration file" p.

(** Position of the argument a path belongs to. *)
Definition Position (fds : list string) (p : string) (i : Z) : Prop :=
  (outside_files p /\ i = (-1)%Z) \/
  (~ outside_files p /\ exists before fd after,
     fds = before ++ fd :: after /\ covers fd p /\ (forall g, In g before -> ~ covers g p) /\
     i = Z.of_nat (List.length before)).

(** No component leads to the parent directory. *)
Definition no_dots (p : string) : Prop := ~ In ".."%string (names p).
(** What reaches [sort] from the linters. *)
Inductive found_in (cwd : string) (fds : list string) : problem -> Prop :=
| found_edulint : forall p fd, In fd fds -> covers fd (path p) -> found_in cwd fds p
| found_flake8 : forall en raw fd, In fd fds -> covers fd (f_filename raw) -> no_dots (f_filename raw) ->
    found_in cwd fds (flake8_to_problem cwd en raw)
| found_pylint : forall en raw p, pylint_to_problem cwd fds en raw = Ok p ->
    (r_path raw = "Command line or configuration file" \/ ~ outside_files (r_path raw)) -> found_in cwd fds p.

(** Lexicographic order of position, path, line and column. *)
Definition not_after (pos : string -> Z) (p q : problem) : Prop :=
  (pos (path p) < pos (path q) \/ pos (path p) = pos (path q) /\
   (String.compare (path p) (path q) = Lt \/ path p = path q /\
    (line p < line q \/ line p = line q /\ column p <= column q)))%Z.
Definition tied (p q : problem) : Prop := path p = path q /\ line p = line q /\ column p = column q.

(** ** Report *)

Definition entries (r : list report_line) : list problem :=
  flat_map (fun x => match x with Entry p => [p] | Header _ => [] end) r.
(** [n] is the part of [p] after the last slash. *)
Definition file_name (p n : string) : Prop := exists d, directory_part p d /\ p = (d ++ n)%string.

(** ** Failures *)

(** flake8 exits with 0 or 1 after a check; anything else is a failure. *)
Definition flake8_failed (r : run) : Prop :=
  match r with
  | Done _ _ => False
  | Exited (Code n) _ _ => n <> 0%Z /\ n <> 1%Z
  | Exited _ _ _ => True
  | Crashed _ => True
  end.
(** pylint exits with 32 if it cannot check. *)
Definition pylint_failed (r : run) : Prop :=
  match r with
  | Done _ _ => False
  | Exited k _ _ => k = Code 32
  | Crashed _ => True
  end.
Definition output_of (r : run) : string :=
  match r with Done o _ => o | Exited _ o _ => o | Crashed _ => "" end.

(** The arguments the linters are called with. *)
Definition flake8_call (fds args : list string) : list string := "--format=json"%string :: args ++ fds.
Definition pylint_call (fds args : list string) : list string := "--recursive=y"%string :: args ++ fds.
Definition crashes (r : run) : Prop := exists e, r = Crashed e.
(** A linter the configuration asks for fails on the group. *)
Definition group_fails (flake8 pylint : list string -> run) (fds : list string) (c : iconfig) : Prop :=
  (exists args, iget c FLAKE8 = Ok (VList args) /\ iget c NO_FLAKE8 = Ok (VBool false) /\
     flake8_failed (flake8 (flake8_call fds args))) \/
  (exists args, iget c PYLINT = Ok (VList args) /\ pylint_failed (pylint (pylint_call fds args))).

(** Specification vocabulary for the properties of config files and of grouping checked files. *)
From Coq Require Import String Ascii List Bool Arith.
From Verif Require Import Base ConfigModel ConfigSpec PathModel ConfigFileModel.
Import ListNotations.
Local Open Scope string_scope.
Local Open Scope list_scope.

(** Two immutable configurations that no reader can tell apart. *)
Definition same_iconfig (a b : iconfig) : Prop :=
  ivals a = ivals b /\ forall k, dget k (ienablers a) = dget k (ienablers b).

(** [below p n q m]: path [q] with contents [m] is [p] itself or lies below it. *)
Inductive below : string -> node -> string -> node -> Prop :=
| below_self : forall p n, below p n p n
| below_child : forall p es name n q m,
    In (name, n) es -> below (pjoin p name) n q m -> below p (Dir es) q m.

(** [s] ends with [suffix]. *)
Definition ends_with (suffix s : string) : bool :=
  String.eqb (drop (String.length s - String.length suffix) s) suffix
  && (String.length suffix <=? String.length s)%nat.

(** A Python file name: it ends with '.py' in any letter case, and not only dots precede that. *)
Definition python_name (name : string) : bool :=
  ends_with ".py" (lower name)
  && negb (String.eqb (strip_dots (substring 0 (String.length name - 3) name)) "").

(** The Python files at or below a path. *)
Fixpoint py_files (path : string) (n : node) : list string :=
  match n with
  | File => if python_name (basename path) then [path] else []
  | Dir es => flat_map (fun '(name, n') => py_files (pjoin path name) n') es
  end.

(** A config file and the config files it extends, weakest first. [own f d] are the options written
    in the file itself. *)
Section Chain.
  Variable cwd : string.
  Variable isdir : string -> bool.
  Variable load_toml : string -> option (list (string * toml)).

  (** The config file named by a config file, relative to it; "empty" if none is named. *)
  Definition extends (path : string) (d : list (string * toml)) (p : string) : Prop :=
    let named := match dget "config-file" d with Some (TStr s) => s | _ => "empty" end in
    get_path_relative_to cwd isdir named path = Ok p.

  Inductive Lineage : string -> list (string * list (string * toml)) -> Prop :=
  | lineage_root : forall d, load_toml "empty" = Some d -> Lineage "empty" [("empty", d)]
  | lineage_step : forall path d p l, path <> "empty" -> load_toml path = Some d ->
      extends path d p -> Lineage p l -> Lineage path (l ++ [(path, d)]).

  (** [path] refers, in one step, to [p]. *)
  Definition refers (path p : string) : Prop :=
    path <> "empty" /\ exists d, load_toml path = Some d /\ extends path d p.

  (** The references starting at [path] come to an end after [n] steps. *)
  Inductive depth : string -> nat -> Prop :=
  | depth_end : forall path, (forall p, ~ refers path p) -> depth path 0
  | depth_step : forall path p n, refers path p -> depth p n -> depth path (S n).
End Chain.

(** The options of one config file, entry after entry, tables of linter options expanded to
    '--key=value'. *)
Section Options.
  Variable cwd : string.
  Variable isdir : string -> bool.

  (** The text of a TOML value. *)
  Inductive TextOf : toml -> string -> Prop :=
  | text_int : forall t, TextOf (TInt t) t
  | text_true : TextOf (TBool true) "True"
  | text_false : TextOf (TBool false) "False"
  | text_str : forall s, TextOf (TStr s) s
  | text_list : forall l, TextOf (TList (map TStr l)) (join "," l).

  (** Values without a text: they are reported and ignored. *)
  Definition textless (v : toml) : Prop := v = TOther \/ exists d, v = TTable d.

  (** The options written by one entry [name = v] of config file [path]. *)
  Inductive EntryOptions (path : string) : string -> toml -> list uarg -> Prop :=
  | entry_value : forall name o v t, documented_name o name -> o <> NO_FLAKE8 -> o <> CONFIG_FILE ->
      o <> LANGUAGE_FILE -> TextOf v t -> EntryOptions path name v [(o, Some t)]
  | entry_language : forall name s p, documented_name LANGUAGE_FILE name ->
      get_path_relative_to cwd isdir s path = Ok p ->
      EntryOptions path name (TStr s) [(LANGUAGE_FILE, Some p)]
  | entry_table : forall name o (kts : list (string * toml * option string)),
      documented_name o name -> accumulates o = true ->
      (forall k v t, In (k, v, t) kts -> match t with Some t => TextOf v t | None => textless v end) ->
      EntryOptions path name (TTable (map fst kts))
        (somes (map (fun '(k, _, t) => match t with
                                       | Some t => Some (o, Some ("--" ++ k ++ "=" ++ t)%string)
                                       | None => None
                                       end) kts))
  | entry_ignored : forall name o v, documented_name o name -> o <> NO_FLAKE8 -> o <> CONFIG_FILE ->
      o <> LANGUAGE_FILE -> textless v -> (accumulates o = true -> v = TOther) ->
      EntryOptions path name v []
  | entry_nothing : forall name v,
      (forall o, documented_name o name -> o = CONFIG_FILE \/ o = NO_FLAKE8) ->
      EntryOptions path name v [].

  (** The entries that are not options. *)
  Definition special (name : string) : bool :=
    str_in name ["translations"; "language-translations"; "default-enabler-name"].

  (** The options of a config file, in order. *)
  Inductive FileOptions (path : string) : list (string * toml) -> list uarg -> Prop :=
  | file_nil : FileOptions path [] []
  | file_special : forall name v d l, special name = true -> FileOptions path d l ->
      FileOptions path ((name, v) :: d) l
  | file_entry : forall name v d l l', special name = false -> EntryOptions path name v l ->
      FileOptions path d l' -> FileOptions path ((name, v) :: d) (l ++ l').
End Options.

(** The option list excludes in-file configuration. *)
Definition excludes_infile (l : list uarg) : bool :=
  match last_in IGNORE_INFILE_CONFIG_FOR l with
  | Some (Some s) => str_in "edulint" (comma_parts s) || str_in "all" (comma_parts s)
  | _ => false
  end.

(** A path given by option [o] in the checked file [path] is relative to that file. *)
Inductive Resolved (cwd : string) (isdir : string -> bool) (path : string) (opts : list uarg) : Opt -> list uarg -> Prop :=
| resolved_none : forall o, (last_in o opts = None \/ last_in o opts = Some None) ->
    Resolved cwd isdir path opts o []
| resolved_some : forall o s p, last_in o opts = Some (Some s) -> get_path_relative_to cwd isdir s path = Ok p ->
    Resolved cwd isdir path opts o [(o, Some p)].

(** The in-file layer of the checked file [path] with the options [opts] in its comments: if the
    file excludes in-file configuration, only that exclusion is left. *)
Inductive InfileLayer (cwd : string) (isdir : string -> bool) (path : string) (opts : list uarg) : list uarg -> Prop :=
| infile_excluded : forall s, last_in IGNORE_INFILE_CONFIG_FOR opts = Some (Some s) -> excludes_infile opts = true ->
    InfileLayer cwd isdir path opts [(IGNORE_INFILE_CONFIG_FOR, Some s)]
| infile_resolved : forall cf lf, excludes_infile opts = false ->
    Resolved cwd isdir path opts CONFIG_FILE cf -> Resolved cwd isdir path opts LANGUAGE_FILE lf ->
    InfileLayer cwd isdir path opts (opts ++ cf ++ lf).

(** The layers in force, strongest first. [files] are the option lists of the selected config file
    and its ancestors, weakest first. A config file that excludes in-file configuration is itself
    only kept when the command line selected it. *)
Definition layers_in_force (cmd infile : list uarg) (files : list (list uarg)) : list (list uarg) :=
  if excludes_infile (concat files)
  then match last_in CONFIG_FILE cmd with
       | Some (Some _) => cmd :: rev files
       | _ => [cmd]
       end
  else cmd :: infile :: rev files.

(** The config file selected: by the command line, else by the in-file layer, else the default. *)
Definition selected (cmd infile : list uarg) : string :=
  match last_in CONFIG_FILE cmd with
  | Some (Some p) => p
  | _ => match last_in CONFIG_FILE infile with Some (Some p) => p | _ => "default" end
  end.

(** The option sets ('translations') and message translations ('language-translations') written in
    one config file. *)
Definition OwnSets (d : list (string * toml)) (s : option_sets) : Prop :=
  match dlast "translations" d with
  | Some v => parse_option_sets v = Ok (Some s)
  | None => s = []
  end.
Definition OwnLangs (d : list (string * toml)) (t : lang_translations) : Prop :=
  match dlast "language-translations" d with
  | Some v => parse_lang_translations v = Some t
  | None => t = []
  end.

(** The definition of a name in the last dictionary that has it. *)
Fixpoint last_def {V} (name : string) (ds : list (dict V)) : option V :=
  match ds with
  | [] => None
  | d :: r => match last_def name r with Some v => Some v | None => dget name d end
  end.

(** An in-file layer that sets no option group and gives no option the value it has anyway. *)
Definition ordinary (l : list uarg) : Prop :=
  forall o t, In (o, t) l -> o <> SET_GROUPS /\
    (accumulates o = false -> ~ Means o t (documented_default o)).

(** All pylint arguments among the options that begin like a message switch are message switches. *)
Definition plain_opts (l : list uarg) : Prop := forall t, In (PYLINT, Some t) l -> plain_switch (lower t).

(** Config files without option sets named like an option, in which everything that begins like a
    message switch is one. *)
Definition plain_files (cwd : string) (isdir : string -> bool) (load_toml : string -> option (list (string * toml))) : Prop :=
  forall path d, load_toml path = Some d ->
    (forall l, FileOptions cwd isdir path d l -> plain_opts l) /\
    (forall s, OwnSets d s -> (forall o, dget (to_name o) s = None) /\
       forall name x, In x (named_set_supplies PYLINT s name) -> plain_switch (lower x)).

(** Two configurations under which every linter behaves in the same way. *)
Definition agree (a b : iconfig) : Prop :=
  (forall o, o <> PYLINT -> iget a o = iget b o) /\
  exists p q, iget a PYLINT = Ok (VList p) /\ iget b PYLINT = Ok (VList q) /\
    forall msg X matches settings switches (s : state msg X),
      run_args msg X matches settings switches p s = run_args msg X matches settings switches q s.

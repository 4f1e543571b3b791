(** Model of edulint/options.py, edulint/option_parses.py, edulint/linters.py,
    edulint/config/arg.py, edulint/config/utils.py and the [Config] class of
    edulint/config/config.py. Definitions only. *)
From Coq Require Import String Ascii List Bool Arith.
From Verif Require Import Base.
Import ListNotations.
Local Open Scope string_scope.
Local Open Scope list_scope.

(** edulint/options.py:18-30, [Option]. *)
Inductive Opt :=
| CONFIG_FILE | PYLINT | FLAKE8 | ALLOWED_ONECHAR_NAMES | DISALLOWED_BUILTIN_NAMES | NO_FLAKE8
| IGNORE_INFILE_CONFIG_FOR | EXPORT_GROUPS | SET_GROUPS | LANGUAGE_FILE.

(** edulint/options.py:5-10,54-55, [NumberFromZero.__new__], [Option.__int__]. *)
Definition opt_index (o : Opt) : nat :=
  match o with
  | CONFIG_FILE => 0 | PYLINT => 1 | FLAKE8 => 2 | ALLOWED_ONECHAR_NAMES => 3
  | DISALLOWED_BUILTIN_NAMES => 4 | NO_FLAKE8 => 5 | IGNORE_INFILE_CONFIG_FOR => 6
  | EXPORT_GROUPS => 7 | SET_GROUPS => 8 | LANGUAGE_FILE => 9
  end.

(** Iteration over the enumeration, edulint/options.py:21-30. *)
Definition all_options : list Opt :=
  [CONFIG_FILE; PYLINT; FLAKE8; ALLOWED_ONECHAR_NAMES; DISALLOWED_BUILTIN_NAMES; NO_FLAKE8;
   IGNORE_INFILE_CONFIG_FOR; EXPORT_GROUPS; SET_GROUPS; LANGUAGE_FILE].

(** Enumeration members are compared by identity (edulint/options.py:18). *)
Definition opt_eqb (a b : Opt) : bool := Nat.eqb (opt_index a) (opt_index b).

(** edulint/options.py:32-33, [Option.to_name]; the table is the result of
    [name.lower().replace("_", "-")] for every member. *)
Definition to_name (o : Opt) : string :=
  match o with
  | CONFIG_FILE => "config-file" | PYLINT => "pylint" | FLAKE8 => "flake8"
  | ALLOWED_ONECHAR_NAMES => "allowed-onechar-names"
  | DISALLOWED_BUILTIN_NAMES => "disallowed-builtin-names" | NO_FLAKE8 => "no-flake8"
  | IGNORE_INFILE_CONFIG_FOR => "ignore-infile-config-for" | EXPORT_GROUPS => "export-groups"
  | SET_GROUPS => "set-groups" | LANGUAGE_FILE => "language-file"
  end%string.

(** edulint/options.py:58, [OPTION_ALIASES]. *)
Definition alias (s : string) : option Opt :=
  if String.eqb s "config" then Some CONFIG_FILE else None.

(** edulint/options.py:35-44, [Option.safe_from_name]. *)
Definition opt_safe_from_name (s : string) : option Opt :=
  match alias (lower s) with
  | Some o => Some o
  | None => find (fun o => String.eqb (to_name o) (lower s)) all_options
  end.

(** edulint/options.py:60-61. *)
Definition DEFAULT_CONFIG : string := "default".
(** [BASE_CONFIG], edulint/options.py:60-61. *)
Definition BASE_CONFIG : string := "empty".

(** edulint/linters.py:6-11, [Linter]. *)
Inductive Linter := EDULINT_L | PYLINT_L | FLAKE8_L.

(** edulint/linters.py:13-14,30-31, [Linter.__str__], [Linter.to_name]. *)
Definition linter_name (l : Linter) : string :=
  match l with EDULINT_L => "edulint" | PYLINT_L => "pylint" | FLAKE8_L => "flake8" end%string.

(** Iteration order of the enumeration, edulint/linters.py:9-11. *)
Definition all_linters : list Linter := [EDULINT_L; PYLINT_L; FLAKE8_L].

(** edulint/linters.py:16-21, [Linter.safe_from_name]. *)
Definition linter_safe_from_name (s : string) : option Linter :=
  find (fun l => String.eqb (linter_name l) (lower s)) all_linters.

(** edulint/linters.py:37-38 with edulint/options.py:46-52: [Linter.to_option] asserts that the
    option exists. *)
Definition linter_to_option (l : Linter) : res Opt :=
  match opt_safe_from_name (linter_name l) with
  | Some o => Ok o
  | None => Raise AssertionError
  end.

(** edulint/options.py:14, [UnionT] (the [int] alternative is used by no option). *)
Inductive val :=
| VBool (b : bool)
| VList (l : list string)
| VOptStr (s : option string).

(** edulint/option_parses.py:8-11, [TakesVal]; [OPTIONAL] is used by no option. *)
Inductive takes_val := TakesYes | TakesNo.

(** edulint/option_parses.py:49-53, [Type]; [INT] is used by no option. *)
Inductive conv := CBool | CList | CComma | CStr.

(** edulint/option_parses.py:75-76, [Combine]. *)
Inductive combine_kind := REPLACE | EXTEND.

(** edulint/option_parses.py:23-37, the converters. *)
Definition convert (c : conv) (v : option string) : val :=
  match c with
  | CBool => VBool (match v with
                    | None => true
                    | Some s => String.eqb s "true" || String.eqb s "on"
                    end)
  | CList => VList (match v with Some s => [s] | None => [] end)
  | CComma => VList (match v with
                     | None => []
                     | Some s => if String.eqb s "" then [] else split_on "," s
                     end)
  | CStr => VOptStr v
  end.

(** edulint/option_parses.py:57-67,72-73: applying a [Combine]. Lists only for [EXTEND]; Python's
    [+] on two strings is not modelled (no string option is extended). *)
Definition apply_combine (k : combine_kind) (lt rt : val) : res val :=
  match k, lt, rt with
  | REPLACE, _, _ => Ok rt
  | EXTEND, VList a, VList b => Ok (VList (a ++ b))
  | EXTEND, _, _ => Raise TypeError
  end.

(** edulint/option_parses.py:79-86, [OptionParse] without the help text. *)
Record option_parse := { takes : takes_val; default : val; conv_of : conv; combine_of : combine_kind }.

(** edulint/option_parses.py:89-170,178-179, [OPTIONS] / [get_option_parses()]. *)
Definition parse_of (o : Opt) : option_parse :=
  match o with
  | CONFIG_FILE => Build_option_parse TakesYes (VOptStr (Some DEFAULT_CONFIG)) CStr REPLACE
  | PYLINT => Build_option_parse TakesYes (VList []) CList EXTEND
  | FLAKE8 => Build_option_parse TakesYes (VList []) CList EXTEND
  | ALLOWED_ONECHAR_NAMES => Build_option_parse TakesYes (VOptStr None) CStr REPLACE
  | NO_FLAKE8 => Build_option_parse TakesNo (VBool false) CBool REPLACE
  | IGNORE_INFILE_CONFIG_FOR => Build_option_parse TakesYes (VList []) CComma REPLACE
  | EXPORT_GROUPS => Build_option_parse TakesYes (VList []) CComma REPLACE
  | SET_GROUPS => Build_option_parse TakesYes (VList []) CComma REPLACE
  | DISALLOWED_BUILTIN_NAMES => Build_option_parse TakesYes (VList []) CComma REPLACE
  | LANGUAGE_FILE => Build_option_parse TakesYes (VOptStr None) CStr REPLACE
  end.

(** edulint/config/arg.py:22-24, [UnprocessedArg] and [ProcessedArg]. *)
Notation uarg := (Opt * option string)%type.
(** [ProcessedArg], edulint/config/arg.py:22-24. *)
Notation parg := (Opt * val)%type.

(** edulint/config/option_sets.py:10-16, [OptionSet.to] (without the description) and [OptionSets]. *)
Definition option_set := list (Linter * list string).
(** [OptionSets], edulint/config/option_sets.py:16. *)
Definition option_sets := dict option_set.

(** edulint/config/utils.py:31-44, [add_enabled]. *)
Definition extract_enabled (enabler prefix v : string) (d : dict string) : dict string :=
  if String.prefix prefix v
  then fold_left (fun d s => dset s enabler d) (split_on "," (drop (String.length prefix) v)) d
  else d.
(** [add_enabled], edulint/config/utils.py:31-44. *)
Definition add_enabled (enabler : string) (d : dict string) (o : Opt) (v : string) : dict string :=
  match o with
  | PYLINT => extract_enabled enabler "--enable=" v d
  | FLAKE8 => extract_enabled enabler "--extend-select=" v (extract_enabled enabler "--select=" v d)
  | IGNORE_INFILE_CONFIG_FOR => dset "EDL001" enabler d
  | _ => d
  end.

(** edulint/config/config.py:39-40,122, the fields of [Config]; [option_parses] is always the
    table [parse_of]. *)
Record config := { args_of : list (option parg); enablers_of : dict string }.

(** edulint/config/config.py:42-46, [Config._convert]. *)
Definition convert_args (l : list uarg) : list parg :=
  map (fun '(o, v) => (o, convert (conv_of (parse_of o)) v)) l.

(** edulint/config/config.py:54-59, [apply_option_set]: the arguments it appends. *)
Definition apply_option_set (s : option_set) : res (list parg) :=
  do ls <- mapM (fun '(l, vals) =>
                   do o <- linter_to_option l;
                   Ok (map (fun v => (o, convert (conv_of (parse_of o)) (Some v))) vals)) s;
  Ok (concat ls).

(** edulint/config/config.py:68-78: the groups listed by one [set-groups] argument; unknown groups
    are skipped (the warning is not modelled). *)
Fixpoint translate_groups (sets : option_sets) (groups : list string) : res (list parg) :=
  match groups with
  | [] => Ok []
  | g :: r =>
      do here <- match dget g sets with None => Ok [] | Some s => apply_option_set s end;
      do rest <- translate_groups sets r;
      Ok (here ++ rest)
  end.

(** edulint/config/config.py:62-82: the arguments produced for one argument. *)
Definition translate_arg (sets : option_sets) (a : parg) : res (list parg) :=
  do groups <- match fst a, snd a with
               | SET_GROUPS, VList gs => translate_groups sets gs
               | SET_GROUPS, _ => Raise TypeError
               | _, _ => Ok []
               end;
  do own <- match dget (to_name (fst a)) sets with None => Ok [] | Some s => apply_option_set s end;
  Ok (a :: groups ++ own).

(** edulint/config/config.py:48-84, [Config._translate]. *)
Definition translate (sets : option_sets) (args : list (option parg)) : res (list (option parg)) :=
  do ls <- mapM (translate_arg sets) (somes args);
  Ok (map Some (concat ls)).

(** [results[old_index] = None], edulint/config/config.py:103. *)
Fixpoint set_nth {A} (n : nat) (a : A) (l : list A) : list A :=
  match n, l with
  | _, [] => []
  | O, _ :: r => a :: r
  | S m, x :: r => x :: set_nth m a r
  end.

(** [parse.combine in allowed_combines], edulint/config/config.py:95. *)
Definition kind_eqb (a b : combine_kind) : bool :=
  match a, b with REPLACE, REPLACE => true | EXTEND, EXTEND => true | _, _ => false end.

(** edulint/config/config.py:89-106: one iteration of the loop of [Config._combine]. [indices] is
    a Python dict from options to positions, modelled as a function. *)
Definition combine_step (allowed : list combine_kind)
    (st : list (option parg) * (Opt -> option nat)) (new : option parg)
  : res (list (option parg) * (Opt -> option nat)) :=
  let '(results, indices) := st in
  match new with
  | None => Ok (results, indices)
  | Some (o, v) =>
      do results' <-
        (match (if existsb (kind_eqb (combine_of (parse_of o))) allowed then indices o else None) with
         | Some i =>
             match nth_error results i with
             | Some (Some (_, old)) =>
                 do v' <- apply_combine (combine_of (parse_of o)) old v;
                 Ok (set_nth i None (results ++ [Some (o, v')]))
             | Some None => Raise AssertionError
             | None => Raise IndexError
             end
         | None => Ok (results ++ [Some (o, v)])
         end);
      Ok (results', fun o' => if opt_eqb o o' then Some (List.length results' - 1) else indices o')
  end.

(** edulint/config/config.py:86-108, [Config._combine]. *)
Fixpoint combine_loop (allowed : list combine_kind) (args : list (option parg))
    (st : list (option parg) * (Opt -> option nat)) : res (list (option parg)) :=
  match args with
  | [] => Ok (fst st)
  | a :: r => do st' <- combine_step allowed st a; combine_loop allowed r st'
  end.
(** [_combine], edulint/config/config.py:86-108. *)
Definition combine_args (allowed : list combine_kind) (args : list (option parg))
  : res (list (option parg)) :=
  combine_loop allowed args ([], fun _ => None).

(** edulint/config/config.py:122-130: the enablers collected by [Config.__init__]. *)
Definition collect_enablers (enabler : string) (l : list (option parg)) : dict string :=
  fold_left (fun d a => match a with
                        | None => d
                        | Some (o, VList vs) => fold_left (fun d v => add_enabled enabler d o v) vs d
                        | Some (o, VOptStr (Some s)) => add_enabled enabler d o s
                        | Some (_, VOptStr None) | Some (_, VBool _) => d
                        end) l [].

(** edulint/config/config.py:110-130, [Config.__init__]. *)
Definition make_config (enabler : option string) (l : list uarg) : res config :=
  do c <- combine_args [REPLACE] (map Some (convert_args l));
  Ok {| args_of := c;
        enablers_of := match enabler with None => [] | Some e => collect_enablers e c end |}.

(** edulint/config/config.py:132-138, [Config.combine]. *)
Definition config_combine (lt rt : config) : res config :=
  do c <- combine_args [REPLACE] (args_of lt ++ args_of rt);
  Ok {| args_of := c; enablers_of := dmerge (enablers_of lt) (enablers_of rt) |}.

(** edulint/config/config.py:143-148, [Config.get_last_value]; the Python value [None] is
    [VOptStr None]. *)
Definition get_last_value (c : config) (o : Opt) (use_default : bool) : res val :=
  match combine_of (parse_of o) with
  | EXTEND => Raise AssertionError
  | REPLACE =>
      match find (fun a => match a with Some (o', _) => opt_eqb o' o | None => false end)
                 (rev (args_of c)) with
      | Some (Some (_, v)) => Ok v
      | _ => Ok (if use_default then default (parse_of o) else VOptStr None)
      end
  end.

(** edulint/config/config.py:158-172: the loop of [_resolve_enable_disable_all] over the reversed
    argument list; the returned list is in the (reversed) order of appending. *)
Fixpoint resolve_loop (args : list string) (all_set enable : bool) : list string :=
  match args with
  | [] => []
  | a0 :: r =>
      let a := lower a0 in
      if String.eqb a "--enable=noop" then a :: resolve_loop r all_set enable
      else if String.eqb a "--disable=all" || String.eqb a "--enable=all" then
        if all_set then resolve_loop r all_set enable
        else a :: resolve_loop r true (String.eqb a "--enable=all")
      else if all_set && ((String.prefix "--disable" a && enable)
                          || (String.prefix "--enable" a && negb enable))
      then resolve_loop r all_set enable
      else a :: resolve_loop r all_set enable
  end.

(** edulint/config/config.py:154-175, [Config._resolve_enable_disable_all]. *)
Definition resolve_enable_disable_all (args : list string) : list string :=
  rev (resolve_loop (rev args) false false).

(** edulint/config/config.py:208-214, [ImmutableConfig]. *)
Record iconfig := { ivals : list parg; ienablers : dict string }.

(** edulint/config/config.py:184-189: one step of filling [ordered_args]. *)
Definition order_step (ordered : list parg) (a : option parg) : res (list parg) :=
  match a with
  | None => Ok ordered
  | Some (PYLINT, VList l) =>
      Ok (set_nth (opt_index PYLINT) (PYLINT, VList (resolve_enable_disable_all l)) ordered)
  | Some (PYLINT, _) => Raise TypeError
  | Some (o, v) => Ok (set_nth (opt_index o) (o, v) ordered)
  end.
(** The loop over the combined arguments, edulint/config/config.py:184-189. *)
Fixpoint order_loop (args : list (option parg)) (ordered : list parg) : res (list parg) :=
  match args with
  | [] => Ok ordered
  | a :: r => do ordered' <- order_step ordered a; order_loop r ordered'
  end.

(** edulint/config/config.py:183, the defaults in option order. *)
Definition default_args : list parg := map (fun o => (o, default (parse_of o))) all_options.

(** edulint/config/config.py:191-195, [enablers_from_option_sets]; [linter.to_option()] may
    raise. *)
Fixpoint set_enablers (name : string) (s : option_set) (d : dict string) : res (dict string) :=
  match s with
  | [] => Ok d
  | (l, vals) :: r =>
      do d' <- match vals with
               | [] => Ok d
               | _ => do o <- linter_to_option l;
                      Ok (fold_left (fun d v => add_enabled name d o v) vals d)
               end;
      set_enablers name r d'
  end.
(** The loop over the option sets, edulint/config/config.py:191-195. *)
Fixpoint sets_enablers (sets : option_sets) (d : dict string) : res (dict string) :=
  match sets with
  | [] => Ok d
  | (name, s) :: r => do d' <- set_enablers name s d; sets_enablers r d'
  end.

(** edulint/config/config.py:177-200, [Config.to_immutable]. Lists and tuples are not
    distinguished (config.py:150-152). *)
Definition to_immutable (c : config) (sets : option_sets) : res iconfig :=
  do translated <- translate sets (args_of c);
  do combined <- combine_args [REPLACE; EXTEND] translated;
  do ordered <- order_loop combined default_args;
  do es <- sets_enablers sets [];
  Ok {| ivals := ordered; ienablers := dmerge es (enablers_of c) |}.

(** edulint/config/config.py:223-224, [ImmutableConfig.__getitem__]. *)
Definition iget (c : iconfig) (o : Opt) : res val :=
  match nth_error (ivals c) (opt_index o) with Some (_, v) => Ok v | None => Raise IndexError end.

(** edulint/config/config.py:257-276, [parse_option]; only whether a value was given matters.
    The warnings are not modelled. *)
Definition parse_option (name : string) (has_val : bool) : option Opt :=
  match opt_safe_from_name name with
  | None => None
  | Some o =>
      match takes (parse_of o), has_val with
      | TakesYes, false => None
      | TakesNo, true => None
      | _, _ => Some o
      end
  end.

(** edulint/config/config.py:280-284, [get_name_val]. *)
Definition get_name_val (arg : string) : string * option string :=
  match split_first "=" arg with
  | Some (name, v) => (name, Some v)
  | None => (arg, None)
  end.

(** edulint/config/config.py:279-292, [parse_args]. *)
Fixpoint parse_args (args : list string) : list uarg :=
  match args with
  | [] => []
  | a :: r =>
      let '(name, v) := get_name_val a in
      match parse_option name (match v with Some _ => true | None => false end) with
      | Some o => (o, v) :: parse_args r
      | None => parse_args r
      end
  end.

(** edulint/config/config.py:309-311, [parse_cmd_config]. *)
Definition parse_cmd_config (args : list string) : res config := make_config (Some "cmd"%string) (parse_args args).

(** edulint/config/config.py:474-476, [_ignore_infile]. *)
Definition ignore_infile (c : config) : res bool :=
  do v <- get_last_value c IGNORE_INFILE_CONFIG_FOR true;
  match v with
  | VList l => Ok (str_in "edulint" l || str_in "all" l)
  | _ => Raise TypeError
  end.

(** Model of reading config files and of choosing the configuration of each checked file:
    edulint/config/utils.py, edulint/config/option_sets.py, edulint/config/language_translations.py
    (parsing part), and the parsers of edulint/config/config.py. Definitions only. *)
From Coq Require Import String Ascii List Bool Arith.
From Verif Require Import Base ConfigModel PathModel.
Import ListNotations.
Local Open Scope string_scope.
Local Open Scope list_scope.

(** Values of a parsed TOML document (tomli): [TInt] carries the decimal text [str(val)], [TOther]
    stands for floats and dates, edulint/config/file_config.py:47. *)
Inductive toml :=
| TInt (text : string)
| TBool (b : bool)
| TStr (s : string)
| TList (l : list toml)
| TTable (d : list (string * toml))
| TOther.

(** [",".join(val)] of edulint/config/utils.py:22: every element has to be a string. *)
Fixpoint strings_of (l : list toml) : res (list string) :=
  match l with
  | [] => Ok []
  | TStr s :: r => do rest <- strings_of r; Ok (s :: rest)
  | _ :: _ => Raise TypeError
  end.

(** edulint/config/utils.py:16-28, [config_file_val_to_str] on a value that is not a pair; [bool] is
    a subclass of [int] and prints as 'True'/'False'. The warning is not modelled. *)
Definition config_file_val_to_str (v : toml) : res (option string) :=
  match v with
  | TInt t => Ok (Some t)
  | TBool b => Ok (Some (if b then "True" else "False"))
  | TStr s => Ok (Some s)
  | TList l => do ss <- strings_of l; Ok (Some (join "," ss))
  | TTable _ | TOther => Ok None
  end.
(** edulint/config/utils.py:23-26, the case of a pair of a table. *)
Definition config_file_pair_to_str (kv : string * toml) : res (option string) :=
  do v <- config_file_val_to_str (snd kv);
  Ok (match v with Some s => Some ("--" ++ fst kv ++ "=" ++ s)%string | None => None end).

(** edulint/config/option_sets.py:50-57: the strings listed for one linter; empty strings are
    dropped ([if str_val]). *)
Definition set_strings (translated : toml) : res (list string) :=
  do vs <- match translated with
           | TTable d => mapM config_file_pair_to_str d
           | v => do s <- config_file_val_to_str v; Ok [s]
           end;
  Ok (filter (fun s => negb (String.eqb s "")) (somes vs)).

(** Equality of linters, edulint/config/option_sets.py:40-60. *)
Definition linter_eqb (a b : Linter) : bool := String.eqb (linter_name a) (linter_name b).
(** [option_set.to[linter] = result], edulint/config/option_sets.py:60. *)
Fixpoint set_linter (l : Linter) (vals : list string) (s : option_set) : option_set :=
  match s with
  | [] => [(l, vals)]
  | (l', v') :: r => if linter_eqb l l' then (l', vals) :: r else (l', v') :: set_linter l vals r
  end.

(** edulint/config/option_sets.py:39-60: one option set. *)
Fixpoint parse_option_set (to : list (string * toml)) (acc : option_set) : res option_set :=
  match to with
  | [] => Ok acc
  | (linter_str, translated) :: r =>
      match linter_safe_from_name linter_str with
      | None => parse_option_set r acc
      | Some l =>
          do result <- set_strings translated;
          parse_option_set r (match result with [] => acc | _ => set_linter l result acc end)
      end
  end.

(** edulint/config/option_sets.py:19-65, [parse_option_sets]; the outer option is the Python value
    [None]. *)
Fixpoint parse_sets (d : list (string * toml)) (acc : option_sets) : res option_sets :=
  match d with
  | [] => Ok acc
  | (name, TTable to) :: r =>
      do s <- parse_option_set to [];
      parse_sets r (match s with [] => acc | _ => dset name s acc end)
  | (_, _) :: r => parse_sets r acc
  end.
(** [parse_option_sets], edulint/config/option_sets.py:19-65. *)
Definition parse_option_sets (v : toml) : res (option option_sets) :=
  match v with
  | TTable d => do s <- parse_sets d []; Ok (Some s)
  | _ => Ok None
  end.

(** edulint/config/language_translations.py:54-66, [Translation]; [extracts] is kept as written in
    the file, since it is not checked completely. *)
Record translation := { template : string; extracts : toml }.
(** [LangTranslations], edulint/config/language_translations.py:107. *)
Definition lang_translations := dict translation.

(** edulint/config/language_translations.py:110-173, [parse_lang_translations]; the first loop only
    warns. *)
Definition extracts_of (d : list (string * toml)) : list (string * toml) :=
  match dget "translated_extracts" d with Some (TTable e) => e | _ => [] end.
(** The loop over identifiers, edulint/config/language_translations.py:156-171. *)
Fixpoint parse_translations (ex : list (string * toml)) (d : list (string * toml)) (acc : lang_translations)
  : lang_translations :=
  match d with
  | [] => acc
  | (id, TStr t) :: r =>
      if String.eqb id "translated_extracts" then parse_translations ex r acc
      else parse_translations ex r
             (dset id {| template := t; extracts := match dget id ex with Some e => e | None => TTable [] end |} acc)
  | (_, _) :: r => parse_translations ex r acc
  end.
(** [parse_lang_translations], edulint/config/language_translations.py:110-173. *)
Definition parse_lang_translations (v : toml) : option lang_translations :=
  match v with
  | TTable d => Some (parse_translations (extracts_of d) d [])
  | _ => None
  end.

(** [pathlib.PurePosixPath.name] and [.stem], edulint/config/config.py:424. *)
Definition path_parts (p : string) : list string :=
  filter (fun c => negb (String.eqb c "" || String.eqb c ".")) (split_on sl p).
(** [Path(path).stem], edulint/config/config.py:424. *)
Definition stem (p : string) : string :=
  let name := last (path_parts p) "" in
  let parts := split_on "." name in
  let base := join "." (removelast parts) in
  if String.eqb base "" || String.eqb (last parts "") "" then name else base.

(** The outside world: parsed files ([load_toml_file], edulint/config/file_config.py:39-51, [None]
    when the file is missing or not TOML; each path is assumed to give the same answer during one
    run), and the file system. *)
Section World.
  Variable cwd : string.
  Variable isdir : string -> bool.
  Variable load_toml : string -> option (list (string * toml)).

  (** edulint/config/config.py:394-422: one entry of a config file. *)
  Definition entry_args (path : string) (kv : string * toml) : res (list uarg) :=
    let '(name, v) := kv in
    match parse_option name true with
    | None => Ok []
    | Some CONFIG_FILE => Ok []
    | Some o =>
        do v' <- match o with
                 | LANGUAGE_FILE =>
                     match v with
                     | TStr s => do p <- get_path_relative_to cwd isdir s path; Ok (TStr p)
                     | _ => Raise AttributeError
                     end
                 | _ => Ok v
                 end;
        do vals <- match v' with
                   | TTable d =>
                       match linter_safe_from_name (to_name o) with
                       | None => Ok []
                       | Some _ => mapM config_file_pair_to_str d
                       end
                   | _ => do s <- config_file_val_to_str v'; Ok [s]
                   end;
        Ok (map (fun s => (o, Some s)) (somes vals))
    end.

  (** Local variables of the loop of edulint/config/config.py:391-422; [None] is the Python value
      [None] returned by the two parsers. *)
  Record own := { own_args : list uarg; own_sets : option option_sets; own_langs : option lang_translations }.
  (** One round of the loop, edulint/config/config.py:391-422. *)
  Definition entry_step (path : string) (acc : own) (kv : string * toml) : res own :=
    if String.eqb (fst kv) "translations" then
      do s <- parse_option_sets (snd kv);
      Ok {| own_args := own_args acc; own_sets := s; own_langs := own_langs acc |}
    else if String.eqb (fst kv) "language-translations" then
      Ok {| own_args := own_args acc; own_sets := own_sets acc; own_langs := parse_lang_translations (snd kv) |}
    else if String.eqb (fst kv) "default-enabler-name" then Ok acc
    else do a <- entry_args path kv;
         Ok {| own_args := own_args acc ++ a; own_sets := own_sets acc; own_langs := own_langs acc |}.
  (** The loop over the entries of a file, edulint/config/config.py:391-422. *)
  Fixpoint entries_loop (path : string) (d : list (string * toml)) (acc : own) : res own :=
    match d with
    | [] => Ok acc
    | kv :: r => do acc' <- entry_step path acc kv; entries_loop path r acc'
    end.

  (** edulint/config/config.py:371-375: the config file this one extends. *)
  Definition base_path (path : string) (d : list (string * toml)) : res string :=
    get_path_relative_to cwd isdir
      (match dget "config-file" d with Some (TStr s) => s | _ => BASE_CONFIG end) path.

  (** edulint/config/config.py:424; a value that is not a string is kept by the code and printed as
      the enabler, here it is replaced by the empty name. *)
  Definition enabler_of (path : string) (d : list (string * toml)) : string :=
    match dget "default-enabler-name" d with
    | Some (TStr s) => s
    | Some _ => ""
    | None => stem path
    end.

  (** [{**None}] raises, edulint/config/config.py:428-429. *)
  Definition unpack {A} (v : option A) : res A :=
    match v with Some a => Ok a | None => Raise TypeError end.

  (** edulint/config/config.py:367-430, [parse_config_file]. [fuel] is Python's recursion limit. *)
  Fixpoint parse_config_file (fuel : nat) (path : string)
    : res (option (config * option_sets * lang_translations)) :=
    match fuel with
    | O => Raise RecursionError
    | S fuel' =>
        match load_toml path with
        | None => Ok None
        | Some d =>
            do base <- (if String.eqb path BASE_CONFIG
                        then do c <- make_config None []; Ok (Some (c, [], []))
                        else do p <- base_path path d; parse_config_file fuel' p);
            match base with
            | None => Ok None
            | Some (base_config, base_sets, base_langs) =>
                do this <- entries_loop path d {| own_args := []; own_sets := Some []; own_langs := Some [] |};
                do c <- make_config (Some (enabler_of path d)) (own_args this);
                do combined <- config_combine base_config c;
                do sets <- unpack (own_sets this);
                do langs <- unpack (own_langs this);
                Ok (Some (combined, dmerge base_sets sets, dmerge base_langs langs))
            end
        end
    end.

  (** edulint/config/language_translations.py:176-180, [parse_lang_file]. *)
  Definition parse_lang_file (path : string) : option lang_translations :=
    match load_toml path with
    | None => Some []
    | Some d => parse_lang_translations (TTable d)
    end.

  (** A directory: its path and the names of its entries in [iterdir] order. The first directory is
      the one of the checked file (or the checked directory), the last one the root directory,
      edulint/config/config.py:340-348. *)
  Definition dir := (string * list string)%type.

  (** edulint/config/config.py:340-348, [search_for_config_in_parents]. The comparison of a name (a
      string) with [IMPLICIT_CONFIG_FILENAMES] (a tuple) is always false in Python; [name_is_tuple]
      is that comparison. The root directory is never examined. *)
  Definition name_is_tuple (name : string) (names : list string) : bool := false.
  (** [IMPLICIT_CONFIG_FILENAMES], edulint/config/config.py:36. *)
  Definition IMPLICIT_CONFIG_FILENAMES : list string := ["edulint.toml"; ".edulint.toml"].
  (** [search_for_config_in_parents], edulint/config/config.py:340-348. *)
  Fixpoint search_for_config_in_parents (dirs : list dir) : option string :=
    match dirs with
    | [] | [_] => None
    | (path, names) :: r =>
        match find (fun n => name_is_tuple n IMPLICIT_CONFIG_FILENAMES) names with
        | Some n => Some (pjoin path n)
        | None => search_for_config_in_parents r
        end
    end.

  (** edulint/config/config.py:314-321, [resolve_relative_option_path]. *)
  Definition resolve_relative_option_path (path : string) (c : config) (o : Opt) : res config :=
    do v <- get_last_value c o false;
    match v with
    | VOptStr None => Ok c
    | VOptStr (Some p) =>
        do abs <- get_path_relative_to cwd isdir p path;
        Ok {| args_of := args_of c ++ [Some (o, VOptStr (Some abs))]; enablers_of := enablers_of c |}
    | _ => Raise AttributeError
    end.

  (** edulint/config/config.py:324-337, [resolve_ignore_infile_config]. *)
  Definition resolve_ignore_infile_config (parsed : list uarg) (c : config) : res config :=
    do ign <- ignore_infile c;
    if negb ign then Ok c
    else
      do v <- get_last_value c IGNORE_INFILE_CONFIG_FOR false;
      match v with
      | VList l =>
          make_config (Some "in-file")
            (if str_in "edulint" l || str_in "all" l
             then [(IGNORE_INFILE_CONFIG_FOR, Some (join "," l))]
             else parsed ++ [(IGNORE_INFILE_CONFIG_FOR, Some (join "," l))])
      | _ => Raise AssertionError
      end.

  (** edulint/config/config.py:351-364, [parse_infile_config]; [extracted] is what [extract_args]
      returned for the file, [dirs] its chain of directories. *)
  Definition parse_infile_config (path : string) (dirs : list dir) (extracted : list string) : res config :=
    let parsed0 := parse_args extracted in
    let parsed := match search_for_config_in_parents dirs with
                  | Some p => (CONFIG_FILE, Some p) :: parsed0
                  | None => parsed0
                  end in
    do c0 <- make_config (Some "in-file") parsed;
    do c1 <- resolve_relative_option_path path c0 CONFIG_FILE;
    do c2 <- resolve_relative_option_path path c1 LANGUAGE_FILE;
    resolve_ignore_infile_config parsed c2.

  (** Equality of dictionaries with string values, edulint/config/config.py:502. *)
  Definition dict_eqb (a b : dict string) : bool :=
    Nat.eqb (List.length a) (List.length b) &&
    forallb (fun kv => match dget (fst kv) b with Some v => String.eqb v (snd kv) | None => false end) a.
  (** Equality of lists, edulint/config/config.py:502. *)
  Fixpoint list_eqb {A} (eqb : A -> A -> bool) (a b : list A) : bool :=
    match a, b with
    | [], [] => true
    | x :: a', y :: b' => eqb x y && list_eqb eqb a' b'
    | _, _ => false
    end.
  (** Equality of values, edulint/config/config.py:502. *)
  Definition val_eqb (a b : val) : bool :=
    match a, b with
    | VBool x, VBool y => Bool.eqb x y
    | VList x, VList y => list_eqb String.eqb x y
    | VOptStr (Some x), VOptStr (Some y) => String.eqb x y
    | VOptStr None, VOptStr None => true
    | _, _ => false
    end.
  (** Equality of the frozen dataclass [ImmutableConfig], edulint/config/config.py:208-214. *)
  Definition iconfig_eqb (a b : iconfig) : bool :=
    list_eqb (fun x y => opt_eqb (fst x) (fst y) && val_eqb (snd x) (snd y)) (ivals a) (ivals b)
    && dict_eqb (ienablers a) (ienablers b).

  (** The groups of edulint/config/config.py:502: a Python dict, in insertion order. *)
  Definition groups := list (iconfig * (config * list string)).
  (** Adding a partial result, edulint/config/config.py:509-518. *)
  Fixpoint add_group (k : iconfig) (c : config) (paths : list string) (g : groups) : groups :=
    match g with
    | [] => [(k, (c, paths))]
    | (k', (c', ps)) :: r =>
        if iconfig_eqb k k' then (k', (c', ps ++ paths)) :: r else (k', (c', ps)) :: add_group k c paths r
    end.

  (** The file system below a path: [os.path.isdir] and [os.listdir]. Symbolic links to ancestors
      are not modelled, edulint/config/config.py:521-536. *)
  Inductive node := File | Dir (entries : list (string * node)).

  (** [os.path.splitext(path)[1].lower() == ".py"], edulint/config/config.py:524: the extension
      starts at the last dot of the last component, leading dots of which do not count. *)
  Fixpoint strip_dots (s : string) : string :=
    match s with String c r => if Ascii.eqb c "." then strip_dots r else s | EmptyString => EmptyString end.
  (** [os.path.splitext(path)[1].lower() == '.py'], edulint/config/config.py:522. *)
  Definition is_py (path : string) : bool :=
    let parts := split_on "." (strip_dots (basename path)) in
    match parts with
    | [] | [_] => false
    | _ => String.eqb (lower (last parts "")) "py"
    end.

  (** What [parse_infile_config] returns for a file (it may raise). *)
  Variable infile : string -> res config.

  (** edulint/config/config.py:511-520, the inner loop of [aggregate_subresults]. *)
  Definition merge_groups (g sub : groups) : groups :=
    fold_left (fun g kv => add_group (fst kv) (fst (snd kv)) (snd (snd kv)) g) sub g.

  (** edulint/config/config.py:522-536, [_parse_infile_configs_rec]; [aggregate] is
      [aggregate_subresults] over the entries of a directory. *)
  Fixpoint parse_rec (path : string) (n : node) : res groups :=
    match n with
    | File =>
        if is_py path then
          do c <- infile path;
          do k <- to_immutable c [];
          Ok [(k, (c, [path]))]
        else Ok []
    | Dir entries =>
        do g <- (fix aggregate (es : list (string * node)) (acc : groups) : res groups :=
                   match es with
                   | [] => Ok acc
                   | (name, n') :: r =>
                       do sub <- parse_rec (pjoin path name) n';
                       aggregate r (merge_groups acc sub)
                   end) entries [];
        match g with
        | [(k, (c, _))] => Ok [(k, (c, [path]))]
        | _ => Ok g
        end
    end.
  (** edulint/config/config.py:542, [aggregate_subresults(files_or_dirs)]. *)
  Fixpoint aggregate_args (l : list (string * node)) (acc : groups) : res groups :=
    match l with
    | [] => Ok acc
    | (path, n) :: r => do sub <- parse_rec path n; aggregate_args r (merge_groups acc sub)
    end.

  (** edulint/config/config.py:500-542, [_parse_infile_configs]. *)
  Definition parse_infile_configs (files_or_dirs : list (string * node)) (cmd : config) : res groups :=
    do ign <- ignore_infile cmd;
    if ign then
      do c <- make_config None [];
      do k <- to_immutable c [];
      Ok [(k, (c, map fst files_or_dirs))]
    else aggregate_args files_or_dirs [].

  (** One element of the result of [get_config_many], edulint/config/config.py:595-596. *)
  Definition outcome := (list string * iconfig * lang_translations)%type.

  (** A value that must be a string or None, edulint/config/config.py:585-588. *)
  Definition opt_str (v : val) : res (option string) :=
    match v with VOptStr s => Ok s | _ => Raise TypeError end.

  (** edulint/config/config.py:566-597: one iteration of the main loop; [memo] is
      [lang_file_results]. [get] looks a config path up in [config_file_results]. *)
  Definition one_group (fuel : nat) (cmd : config) (cmd_path : option string)
      (memo : dict lang_translations) (infile_config : config) (paths : list string)
    : res (option outcome * dict lang_translations) :=
    do combined <- config_combine infile_config cmd;
    do key <- match cmd_path with
              | Some p => Ok p
              | None =>
                  do v <- get_last_value infile_config CONFIG_FILE true;
                  do s <- opt_str v;
                  match s with Some p => Ok p | None => Raise KeyError end
              end;
    do r <- parse_config_file fuel key;
    match r with
    | None => Ok (None, memo)
    | Some (file_config, sets, langs) =>
        do ign <- ignore_infile file_config;
        do c <- (if ign
                 then match cmd_path with
                      | Some _ => config_combine file_config cmd
                      | None => Ok cmd
                      end
                 else config_combine file_config combined);
        do ic <- to_immutable c sets;
        do lv <- iget ic LANGUAGE_FILE;
        do lf <- opt_str lv;
        match lf with
        | None => Ok (Some (paths, ic, langs), memo)
        | Some f =>
            match (match dget f memo with Some t => Some t | None => parse_lang_file f end) with
            | Some t =>
                let langs' := dmerge langs t in
                Ok (Some (paths, ic, langs'), dset f langs' memo)
            | None => Ok (Some (paths, ic, langs), memo)
            end
        end
    end.
  (** The loop of [get_config_many], edulint/config/config.py:566-597. *)
  Fixpoint main_loop (fuel : nat) (cmd : config) (cmd_path : option string)
      (memo : dict lang_translations) (g : list (config * list string)) : res (list outcome) :=
    match g with
    | [] => Ok []
    | (c, paths) :: r =>
        do step <- one_group fuel cmd cmd_path memo c paths;
        do rest <- main_loop fuel cmd cmd_path (snd step) r;
        Ok (match fst step with Some o => o :: rest | None => rest end)
    end.

  (** edulint/config/config.py:545-598, [get_config_many]. Loading every config file before the
      loop (lines 560-562) is merged into the loop: files are parsed when first needed, which can
      only change which of several exceptions is raised. *)
  Definition get_config_many (fuel : nat) (files_or_dirs : list (string * node)) (cmd_args : list string)
    : res (list outcome) :=
    do cmd <- parse_cmd_config cmd_args;
    do g <- parse_infile_configs files_or_dirs cmd;
    do v <- get_last_value cmd CONFIG_FILE false;
    do cmd_path <- opt_str v;
    main_loop fuel cmd cmd_path [] (map snd g).
End World.

(** Model of the version check and of the explanations: edulint/versions/version_checker.py,
    edulint/versions/pypi_helper.py, edulint/explanations.py, parts of edulint/edulint.py. Definitions only. *)
From Coq Require Import String Ascii List Bool Arith ZArith.
From Verif Require Import Base TranslateModel.
Import ListNotations.
Local Open Scope string_scope.
Local Open Scope list_scope.

(** ** The package index *)

(** edulint/versions/version_checker.py:17-21, [PackageInfo]. *)
Record info := { known : option string; started : Z }.
(** Its default values, edulint/versions/version_checker.py:20-21. *)
Definition no_info : info := {| known := None; started := 0 |}.

(** The file versions.json, edulint/versions/version_checker.py:42-53: not there, with data of
    packages, or not valid JSON (an interrupted write leaves such a file). *)
Inductive stored := Missing | Data (d : dict info) | Garbage.

(** How rewriting the file ends, edulint/versions/version_checker.py:68-69: done; an exception before
    or after the file was truncated; the death of the process before or after that. *)
Inductive saving := Saved | Refused (truncated : bool) | Killed (truncated : bool).

(** One call of [get_latest_version], edulint/versions/version_checker.py:81-94, with what it meets:
    two readings of the clock, the releases in the index (each with the yanked flags of its builds)
    or an exception, and the fates of the two writes. *)
Record call := {
  package : string;
  check_time : Z;
  save_time : Z;
  index : res (list (string * list bool));
  first_save : saving;
  second_save : saving
}.
(** The file, and the times of the attempts that went on to ask the index, oldest first,
    edulint/versions/version_checker.py:42-94. *)
Record vworld := { file : stored; asked : list (string * Z) }.
(** What a call ends with; [None] is the death of the process, edulint/versions/version_checker.py:81-94. *)
Definition ending := option (res (option string)).
(** Raised by [json.load], edulint/versions/version_checker.py:60, 77. *)
Definition JSONDecodeError : exn := OtherError "JSONDecodeError".
(** Raised when the file cannot be written, edulint/versions/version_checker.py:68-69. *)
Definition OSError : exn := OtherError "OSError".

(** edulint/versions/version_checker.py:42-47, [_create_json_file_if_doesnt_exist], and
    edulint/versions/version_checker.py:75-77. *)
Definition read_file (f : stored) : res (dict info) :=
  match f with Missing => Ok [] | Data d => Ok d | Garbage => Raise JSONDecodeError end.
(** edulint/versions/version_checker.py:60, 77. *)
Definition info_of (p : string) (d : dict info) : info :=
  match dget p d with Some i => i | None => no_info end.

(** edulint/versions/version_checker.py:56-71, [_save_package_info_locally]; [if version] and
    [if last_update_started] are tests of truth. *)
Definition truthy_text (o : option string) : bool :=
  match o with Some EmptyString | None => false | _ => true end.
(** [_save_package_info_locally], edulint/versions/version_checker.py:56-71. *)
Definition save_info (p : string) (version : option string) (start : option Z) (s : saving) (f : stored) : option (stored * res unit) :=
  match read_file f with
  | Raise e => Some (f, Raise e)
  | Ok d =>
      let i := info_of p d in
      let i := if truthy_text version then {| known := version; started := started i |} else i in
      let i := match start with
               | Some t => if Z.eqb t 0 then i else {| known := known i; started := t |}
               | None => i
               end in
      match s with
      | Saved => Some (Data (dset p i d), Ok tt)
      | Refused cut => Some (if cut then Garbage else Data d, Raise OSError)
      | Killed _ => None
      end
  end.
(** The file left behind by a killed process, edulint/versions/version_checker.py:68-69. *)
Definition left_behind (s : saving) (f : stored) : stored :=
  match s with Killed true => Garbage | _ => f end.

Section Versions.
  (** [packaging.version.Version]: parsing ([None] for an invalid version), its parts and its text,
      edulint/versions/utils.py:10-37. *)
  Variable V : Type.
  Variable parse : string -> option V.
  Variable show : V -> string.
  Variables major minor micro : V -> nat.
  Variable lt : V -> V -> bool.

  (** edulint/versions/pypi_helper.py:10-24, [_fully_released_versions]. *)
  Fixpoint released (l : list (string * list bool)) : list V :=
    match l with
    | [] => []
    | (id, builds) :: r =>
        let has_some_builds := negb (Nat.eqb (List.length builds) 0) in
        let is_yanked := existsb (fun b => b) builds in
        match parse id with
        | Some v => if has_some_builds && negb is_yanked then v :: released r else released r
        | None => released r
        end
    end.
  (** edulint/versions/pypi_helper.py:38-43, [get_versions]. *)
  Definition get_versions (p : string) (releases : res (list (string * list bool))) : res (list V) :=
    do l <- releases;
    let vs := released l in
    Ok (if String.eqb p "pylint" then filter (fun v => Nat.leb 3 (major v)) vs else vs).

  (** [sorted(key=...)]: stable insertion, edulint/versions/version_checker.py:89 and
      edulint/versions/pypi_helper.py:32-34. *)
  Fixpoint insert (leb : V -> V -> bool) (v : V) (l : list V) : list V :=
    match l with [] => [v] | u :: r => if leb v u then v :: l else u :: insert leb v r end.
  (** [sorted], edulint/versions/version_checker.py:89. *)
  Definition sorted (leb : V -> V -> bool) (l : list V) : list V := fold_right (insert leb) [] l.

  (** The order of (major, minor, micro), edulint/versions/version_checker.py:89. *)
  Definition triple_leb (u v : V) : bool :=
    if Nat.eqb (major u) (major v) then
      if Nat.eqb (minor u) (minor v) then Nat.leb (micro u) (micro v) else Nat.leb (minor u) (minor v)
    else Nat.leb (major u) (major v).
  (** [sorted_versions[-1]], edulint/versions/version_checker.py:90. *)
  Fixpoint last_of (l : list V) : option V :=
    match l with [] => None | [v] => Some v | _ :: r => last_of r end.
  (** edulint/versions/version_checker.py:88-90: the text of [sorted_versions[-1]]. *)
  Definition latest_of (p : string) (releases : res (list (string * list bool))) : res string :=
    do vs <- get_versions p releases;
    match last_of (sorted triple_leb vs) with
    | None => Raise IndexError
    | Some v => Ok (show v)
    end.

  (** edulint/versions/version_checker.py:81-94, [get_latest_version]; the default data of a missing
      file are written when it is first read. *)
  Definition get_latest (c : call) (ttl : Z) (w : vworld) : vworld * ending :=
    match read_file (file w) with
    | Raise e => (w, Some (Raise e))
    | Ok d =>
        let f := Data d in
        let i := info_of (package c) d in
        if Z.ltb (check_time c) (started i + ttl) then ({| file := f; asked := asked w |}, Some (Ok (known i)))
        else
          match save_info (package c) None (Some (save_time c)) (first_save c) f with
          | None => ({| file := left_behind (first_save c) f; asked := asked w |}, None)
          | Some (f1, Raise _) => ({| file := f1; asked := asked w |}, Some (Ok None))
          | Some (f1, Ok _) =>
              let asked1 := asked w ++ [(package c, save_time c)] in
              match latest_of (package c) (index c) with
              | Raise _ => ({| file := f1; asked := asked1 |}, Some (Ok None))
              | Ok v =>
                  match save_info (package c) (Some v) None (second_save c) f1 with
                  | None => ({| file := left_behind (second_save c) f1; asked := asked1 |}, None)
                  | Some (f2, Raise _) => ({| file := f2; asked := asked1 |}, Some (Ok None))
                  | Some (f2, Ok _) => ({| file := f2; asked := asked1 |}, Some (Ok (Some v)))
                  end
              end
          end
    end.
  (** A sequence of version checks, edulint/versions/version_checker.py:81-94. *)
  Fixpoint checks (cs : list call) (ttl : Z) (w : vworld) : vworld :=
    match cs with [] => w | c :: r => checks r ttl (fst (get_latest c ttl w)) end.
  (** Before the first check, edulint/versions/version_checker.py:42-47. *)
  Definition fresh_start : vworld := {| file := Missing; asked := [] |}.

  (** edulint/versions/version_checker.py:97-104, [is_update_waiting]; [local] is the installed version. *)
  Definition is_update_waiting (local : option string) (c : call) (ttl : Z) (w : vworld) : vworld * option (res bool) :=
    match local with
    | None => (w, Some (Ok false))
    | Some v =>
        let (w', r) := get_latest c ttl w in
        (w', match r with
             | None => None
             | Some (Raise e) => Some (Raise e)
             | Some (Ok latest) =>
                 Some (Ok (negb (match latest with Some l => String.eqb v l | None => false end)))
             end)
    end.

  (** edulint/edulint.py:142-155, [_update_check]: the version announced, if any; the second call is
      [c2]. Problems with a closed standard error are not modelled. *)
  Definition version_ttl : Z := 600.
  (** [_update_check], edulint/edulint.py:142-155. *)
  Definition update_check (local : option string) (c c2 : call) (w : vworld) : option (res (option (option string))) :=
    match is_update_waiting local c version_ttl w with
    | (_, None) => None
    | (_, Some (Raise e)) => Some (Raise e)
    | (_, Some (Ok false)) => Some (Ok None)
    | (w', Some (Ok true)) =>
        match snd (get_latest c2 version_ttl w') with
        | None => None
        | Some (Raise e) => Some (Raise e)
        | Some (Ok v) => Some (Ok (Some v))
        end
    end.

  (** ** Choosing versions to test with *)

  (** edulint/versions/pypi_helper.py:30, the key of a group. *)
  Definition group_key (v : V) : string := (dec (major v) ++ "." ++ dec (minor v))%string.
  (** edulint/versions/pypi_helper.py:28-30: the groups in the order of their first members. *)
  Definition group_versions (vs : list V) : dict (list V) :=
    fold_left (fun d v => dset (group_key v) (match dget (group_key v) d with Some g => g | None => [] end ++ [v]) d) vs [].
  (** edulint/versions/pypi_helper.py:32-33: [sort(reverse=True)] keeps the order of equal elements. *)
  Definition newest (g : list V) : option V :=
    match sorted (fun u v => negb (lt u v)) g with [] => None | v :: _ => Some v end.
  (** The order of (major, minor), edulint/versions/pypi_helper.py:34. *)
  Definition minor_leb (u v : V) : bool :=
    if Nat.eqb (major u) (major v) then Nat.leb (minor u) (minor v) else Nat.leb (major u) (major v).
  (** edulint/versions/pypi_helper.py:27-35, [_only_last_patch_of_each_minor]. *)
  Definition last_patches (vs : list V) : list V :=
    sorted minor_leb (somes (map (fun kg => newest (snd kg)) (group_versions vs))).
End Versions.

(** ** Explanations *)

(** The downloaded file, as text; the time of the last attempt in the database, edulint/explanations.py:68-71;
    and the times of the attempts that asked the server. *)
Record eworld := { online : option string; last_update : option Z; fetched : list Z }.
(** One run of the updating thread, edulint/explanations.py:64-81: whether the database can be used,
    two readings of the clock, the server's answer ([None] if it raises) and the fate of the write. *)
Record attempt := {
  db_works : bool;
  read_time : Z;
  write_time : Z;
  reply : option (Z * string);
  stored_text : option string   (* what is in the file after writing; [None] if it could not be opened *)
}.
(** edulint/explanations.py:64-81, [_thread_update_explanations]. *)
Definition update_thread (a : attempt) (ttl : Z) (w : eworld) : eworld :=
  if negb (db_works a) then w
  else if Z.ltb (read_time a) (match last_update w with Some t => t | None => 0 end + ttl) then w
  else
    let w' := {| online := online w; last_update := Some (write_time a); fetched := fetched w ++ [write_time a] |} in
    match reply a with
    | None => w'
    | Some (code, _) =>
        if Z.eqb code 200 then
          {| online := match stored_text a with Some t => Some t | None => online w' end;
             last_update := last_update w'; fetched := fetched w' |}
        else w'
    end.
(** A sequence of attempts, edulint/explanations.py:64-81. *)
Fixpoint attempts (l : list attempt) (ttl : Z) (w : eworld) : eworld :=
  match l with [] => w | a :: r => attempts r ttl (update_thread a ttl w) end.

Section Explanations.
  (** What [tomli.load] makes of a text, edulint/explanations.py:38, 48; and the text distributed with
      the package, [None] if it cannot be read. *)
  Variable load : string -> res (dict (dict string)).
  Variable pip : option string.

  (** Opening and parsing the distributed file, edulint/explanations.py:37-38, 47-48. *)
  Definition load_pip : res (dict (dict string)) :=
    match pip with None => Raise (OtherError "FileNotFoundError") | Some t => load t end.
  (** edulint/explanations.py:42-50, [_load_updated_explanations]. *)
  Definition load_updated (w : eworld) : option (dict (dict string)) :=
    match online w with
    | None => None
    | Some _ => match load_pip with Ok d => Some d | Raise _ => None end
    end.
  (** edulint/explanations.py:30-39, [get_explanations], without starting the thread. *)
  Definition get_explanations (w : eworld) : res (dict (dict string)) :=
    match load_updated w with
    | Some ((_ :: _) as d) => Ok d
    | _ => load_pip
    end.

  (** edulint/edulint.py:251-258, the loop of [get_message_explanations]; also the identifiers warned about. *)
  Fixpoint select (expl : dict (dict string)) (ids : list string) (acc : dict (dict string)) : dict (dict string) * list string :=
    match ids with
    | [] => (acc, [])
    | i :: r =>
        match dget i expl with
        | None => let (d, l) := select expl r acc in (d, i :: l)
        | Some e => select expl r (dset i e acc)
        end
    end.
  (** edulint/edulint.py:233-258, [get_message_explanations]. *)
  Definition get_message_explanations (ids : option (list string)) (w : eworld) : res (dict (dict string) * list string) :=
    do expl <- get_explanations w;
    Ok (select expl (match ids with Some l => l | None => map fst expl end) []).
  (** edulint/edulint.py:262-265, the first part of [print_message_explanations]. *)
  Definition explain (ids : list string) (w : eworld) : res (dict (dict string) * list string) :=
    get_message_explanations (if existsb (fun i => String.eqb (lower i) "all") ids then None else Some ids) w.
End Explanations.

(** ** Background work *)

(** edulint/edulint.py:290-307, [main]: the threads that are started, with the commands of
    edulint/edulint.py:81-115; [get_message_explanations] starts one, edulint/explanations.py:31 and
    edulint/edulint.py:248. *)
Inductive command := CheckCommand | ExplainCommand | VersionCommand.
(** The threads, edulint/edulint.py:290-307. *)
Inductive background := UpdateCheck | ExplanationsUpdate.
(** The threads that are started, edulint/edulint.py:290-307. *)
Definition threads (disable_version_check disable_explanations_update : bool) (c : command) : list background :=
  (if disable_version_check then [] else [UpdateCheck]) ++
  (if disable_explanations_update then [] else [ExplanationsUpdate]) ++
  match c with ExplainCommand => [ExplanationsUpdate] | _ => [] end.

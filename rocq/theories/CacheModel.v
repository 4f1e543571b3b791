(** Model of the cache of remote configurations, edulint/config/file_config.py. Definitions only. *)
From Coq Require Import String Ascii List Bool Arith ZArith.
From Verif Require Import Base.
Import ListNotations.
Local Open Scope string_scope.
Local Open Scope list_scope.

(** The files of the cache folder, edulint/config/file_config.py:172-176; directories are not modelled. *)
Definition disk := string -> option string.
(** An empty cache folder, edulint/config/file_config.py:172-176. *)
Definition empty_disk : disk := fun _ => None.
(** Replacing the text of a file, edulint/config/file_config.py:196-208. *)
Definition put (p s : string) (d : disk) : disk := fun q => if String.eqb q p then Some s else d q.

(** What [requests.get] gives, edulint/config/file_config.py:142-156: an answer with status and text,
    a [RequestException], or another exception. *)
Inductive response := Answer (code : Z) (body : string) | NoAnswer | Broken (e : exn).

(** How writing to the cache ends, edulint/config/file_config.py:196-210: completely, with an
    exception after some elementary operations (it is logged), or by the death of the process. *)
Inductive fate := Written | Failed (k : nat) | Crashed (k : nat).

(** One call of [http_get], edulint/config/file_config.py:127-165, with what it meets: the readings
    of the clock, the server's answer, and whether the cache can be read and written. *)
Record request := {
  url : string;
  before : Z;          (* clock at the first look into the cache *)
  readable1 : bool;    (* reading the cache raises nothing unexpected *)
  answer : response;
  stamp : Z;           (* clock when the metadata are written *)
  writing : fate;
  after : Z;           (* clock at the second look into the cache *)
  readable2 : bool
}.

(** The world: the disk, and the requests that reached the server, oldest first, edulint/config/file_config.py:127-165. *)
Record world := { files : disk; contacts : list request }.
(** How [http_get] ends, edulint/config/file_config.py:127-165. *)
Inductive outcome := Returned (s : string) | Raised (e : exn) | Died.

(** The error for a configuration that is neither reachable nor cached,
    edulint/config/file_config.py:163-165. *)
Definition FileNotFound : exn := OtherError "FileNotFoundError".

(** Universal newlines of [open(..., "r")], edulint/config/file_config.py:222. *)
Fixpoint newlines (s : string) : string :=
  match s with
  | EmptyString => ""
  | String "013" (String "010" r) => String "010" (newlines r)
  | String "013" r => String "010" (newlines r)
  | String c r => String c (newlines r)
  end.

(** Elementary operations on files, edulint/config/file_config.py:197-208: opening for writing
    truncates, then the text is written byte by byte. *)
Inductive op := Truncate (p : string) | Put (p : string) (c : ascii).
(** The effect of an operation, edulint/config/file_config.py:197-208. *)
Definition run_op (o : op) (d : disk) : disk :=
  match o with
  | Truncate p => put p "" d
  | Put p c => put p (match d p with Some s => s | None => "" end ++ String c "")%string d
  end.
(** The effect of several operations, edulint/config/file_config.py:197-208. *)
Fixpoint run_ops (l : list op) (d : disk) : disk :=
  match l with [] => d | o :: r => run_ops r (run_op o d) end.
(** Opening a file and writing a text, edulint/config/file_config.py:197-208. *)
Definition write_file (p s : string) : list op := Truncate p :: map (Put p) (list_ascii_of_string s).

Section Cache.
  (** [hashlib.sha256(...).hexdigest()], edulint/config/file_config.py:180; [json.dump] of the metadata,
      edulint/config/file_config.py:201-208; [json.load(...)["timestamp"]], edulint/config/file_config.py:218-219
      ([None] if it raises); whether bytes are valid UTF-8, edulint/config/file_config.py:222. *)
  Variable digest : string -> string.
  Variable dump : Z -> string -> string.
  Variable timestamp : string -> option Z.
  Variable decodes : string -> bool.

  (** edulint/config/file_config.py:183-187, [_get_filepath_from_source]. *)
  Definition content_path (u : string) : string := (digest u ++ ".toml")%string.
  (** edulint/config/file_config.py:190-192, [_get_metadata_filepath]. *)
  Definition metadata_path (u : string) : string := (digest u ++ ".toml.metadata")%string.

  (** edulint/config/file_config.py:195-210, [_write_version_to_disk]. *)
  Definition write_version (u content : string) (t : Z) (f : fate) (d : disk) : disk :=
    let ops := write_file (content_path u) content ++ write_file (metadata_path u) (dump t u) in
    run_ops (match f with Written => ops | Failed k | Crashed k => firstn k ops end) d.

  (** edulint/config/file_config.py:213-229, [_read_version_from_disk]. *)
  Definition read_version (u : string) (age now : Z) (works : bool) (d : disk) : option string :=
    if negb works then None
    else
      match d (metadata_path u) with
      | None => None
      | Some m =>
          match timestamp m with
          | None => None
          | Some t =>
              if Z.leb (t + age) now then None
              else
                match d (content_path u) with
                | None => None
                | Some c => if decodes c then Some (newlines c) else None
                end
          end
      end.

  (** [if cached_version], edulint/config/file_config.py:138, 161. *)
  Definition nonempty (o : option string) : option string :=
    match o with Some EmptyString => None | _ => o end.

  (** edulint/config/file_config.py:130-131. *)
  Definition max_cache_time : Z := 5 * 60.
  (** [500 * 24 * 60], edulint/config/file_config.py:131. *)
  Definition max_cache_time_when_offline : Z := 500 * 24 * 60.

  (** edulint/config/file_config.py:127-165, [http_get]. *)
  Definition http_get (r : request) (w : world) : world * outcome :=
    match nonempty (read_version (url r) max_cache_time (before r) (readable1 r) (files w)) with
    | Some c => (w, Returned c)
    | None =>
        let asked := contacts w ++ [r] in
        let fallback :=
          ({| files := files w; contacts := asked |},
           match nonempty (read_version (url r) max_cache_time_when_offline (after r) (readable2 r) (files w)) with
           | Some c => Returned c
           | None => Raised FileNotFound
           end) in
        match answer r with
        | Broken e => ({| files := files w; contacts := asked |}, Raised e)
        | NoAnswer => fallback
        | Answer code body =>
            if Z.eqb code 200 then
              ({| files := write_version (url r) body (stamp r) (writing r) (files w); contacts := asked |},
               match writing r with Crashed _ => Died | _ => Returned body end)
            else fallback
        end
    end.

  (** A sequence of calls, in one process or several, edulint/config/file_config.py:127-165. *)
  Fixpoint history (rs : list request) (w : world) : world :=
    match rs with [] => w | r :: l => history l (fst (http_get r w)) end.
  (** Before the first call, edulint/config/file_config.py:127-165. *)
  Definition start : world := {| files := empty_disk; contacts := [] |}.
End Cache.

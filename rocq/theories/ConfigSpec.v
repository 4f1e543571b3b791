(** Specification vocabulary for the configuration properties C01-C04, C10, C11, C14.
    It shares only data types with the model (options, values, the tables of linters). *)
From Coq Require Import String Ascii List Bool Arith.
From Verif Require Import Base ConfigModel.
Import ListNotations.
Local Open Scope list_scope.

(** Documented behaviour: only the linters' argument lists accumulate, other options replace. *)
Definition accumulates (o : Opt) : bool := match o with PYLINT | FLAKE8 => true | _ => false end.

(** Documented defaults (docs: configuration.rst, [edulint check -h]). *)
Definition documented_default (o : Opt) : val :=
  match o with
  | CONFIG_FILE => VOptStr (Some "default"%string)
  | PYLINT | FLAKE8 | DISALLOWED_BUILTIN_NAMES | IGNORE_INFILE_CONFIG_FOR | EXPORT_GROUPS
  | SET_GROUPS => VList []
  | ALLOWED_ONECHAR_NAMES | LANGUAGE_FILE => VOptStr None
  | NO_FLAKE8 => VBool false
  end.

(** [l] lists the comma separated parts of [s]. *)
Definition CommaParts (s : string) (l : list string) : Prop :=
  (s = EmptyString /\ l = []) \/
  (s <> EmptyString /\ l <> [] /\ join "," l = s /\ Forall (fun x => has_char "," x = false) l).

(** What an option text stands for. *)
Definition Means (o : Opt) (text : option string) (v : val) : Prop :=
  match o with
  | CONFIG_FILE | ALLOWED_ONECHAR_NAMES | LANGUAGE_FILE => v = VOptStr text
  | NO_FLAKE8 => v = VBool true \/ text <> None
  | PYLINT | FLAKE8 => match text with Some s => v = VList [s] | None => v = VList [] end
  | DISALLOWED_BUILTIN_NAMES | IGNORE_INFILE_CONFIG_FOR | EXPORT_GROUPS | SET_GROUPS =>
      match text with
      | Some s => exists l, v = VList l /\ CommaParts s l
      | None => v = VList []
      end
  end.

Definition same_opt (a b : Opt) : {a = b} + {a <> b}.
Proof. decide equality. Defined.

(** The last value a layer gives to an option. *)
Fixpoint last_in (o : Opt) (layer : list uarg) : option (option string) :=
  match layer with
  | [] => None
  | (o', v) :: r => match last_in o r with
                    | Some w => Some w
                    | None => if same_opt o o' then Some v else None
                    end
  end.

(** The value given by the first layer of the list (strongest first) that mentions the option. *)
Fixpoint strongest (o : Opt) (layers : list (list uarg)) : option (option string) :=
  match layers with
  | [] => None
  | l :: r => match last_in o l with Some v => Some v | None => strongest o r end
  end.

(** An argument is in effect unless it is a replace-option given again later. *)
Fixpoint in_effect (l : list uarg) : list uarg :=
  match l with
  | [] => []
  | (o, v) :: r =>
      if accumulates o then (o, v) :: in_effect r
      else match last_in o r with
           | Some _ => in_effect r
           | None => (o, v) :: in_effect r
           end
  end.

(** The option a linter's arguments belong to. *)
Definition belongs (o : Opt) (l : Linter) : bool :=
  match o, l with PYLINT, PYLINT_L | FLAKE8, FLAKE8_L => true | _, _ => false end.

(** Arguments an option set supplies for option [o], in the order they are written. *)
Definition set_supplies (o : Opt) (s : option_set) : list string :=
  flat_map (fun '(l, vals) => if belongs o l then vals else []) s.
Definition named_set_supplies (o : Opt) (sets : option_sets) (name : string) : list string :=
  match dget name sets with Some s => set_supplies o s | None => [] end.

(** The comma separated parts, as a function (agrees with [CommaParts], proved). *)
Definition comma_parts (s : string) : list string :=
  if String.eqb s EmptyString then [] else split_on "," s.

(** Everything one argument supplies for the linter option [o]: its own value, then the groups it
    sets, then the option set named after the option. *)
Definition supplies (o : Opt) (sets : option_sets) (a : uarg) : list string :=
  (if same_opt (fst a) o then match snd a with Some v => [v] | None => [] end else []) ++
  (match fst a, snd a with
   | SET_GROUPS, Some v => flat_map (named_set_supplies o sets) (comma_parts v)
   | _, _ => []
   end) ++
  named_set_supplies o sets (to_name (fst a)).

(** Option sets for pylint and flake8 only. *)
Definition sets_wellformed (sets : option_sets) : Prop :=
  forall name s, In (name, s) sets -> forall l vals, In (l, vals) s -> l <> EDULINT_L.

(** The layers of one checked file combined as in [get_config_many] (config.py:427,567,585,587):
    a chain of config files (weakest first), then in-file options, then the command line. *)
Fixpoint chain (base : config) (files : list (string * list uarg)) : res config :=
  match files with
  | [] => Ok base
  | (name, l) :: r =>
      do c <- make_config (Some name) l;
      do b <- config_combine base c;
      chain b r
  end.
Definition final_config (sets : option_sets) (files : list (string * list uarg))
    (infile cmd : list uarg) : res iconfig :=
  do base <- make_config None [];
  do f <- chain base files;
  do i <- make_config (Some "in-file"%string) infile;
  do c <- make_config (Some "cmd"%string) cmd;
  do ic <- config_combine i c;
  do all <- config_combine f ic;
  to_immutable all sets.

(** pylint's processing of its command line, as documented by pylint: arguments are processed from
    left to right; [--enable=a,b] turns the listed messages on and [--disable=a,b] off, [all] stands
    for every message. Any other argument may change other settings [X] (such as the loaded
    extensions) and, depending on them, the message switches in an arbitrary way. *)
Section Pylint.
  Variables (msg X : Type).
  Variable matches : string -> msg -> bool.
  Variable other_settings : string -> X -> X.
  Variable other_switches : string -> X -> (msg -> bool) -> (msg -> bool).
  Definition state := ((msg -> bool) * X)%type.
  Definition switch (names : list string) (b : bool) (on : msg -> bool) : msg -> bool :=
    fun m => if existsb (fun n => String.eqb n "all" || matches n m) names then b else on m.
  Definition run_arg (a : string) (st : state) : state :=
    if String.prefix "--enable=" a then (switch (split_on "," (drop 9 a)) true (fst st), snd st)
    else if String.prefix "--disable=" a then (switch (split_on "," (drop 10 a)) false (fst st), snd st)
    else (other_switches a (snd st) (fst st), other_settings a (snd st)).
  Definition run_args (l : list string) (st : state) : state :=
    fold_left (fun st a => run_arg a st) l st.
End Pylint.

(** If the argument begins like a message switch, it is one. *)
Definition plain_switch (a : string) : Prop :=
  (String.prefix "--enable" a = true -> String.prefix "--enable=" a = true) /\
  (String.prefix "--disable" a = true -> String.prefix "--disable=" a = true).

(** The documented spellings of an option name: its name in any letter case, and the alias
    'config' of 'config-file'. *)
Definition documented_name (o : Opt) (s : string) : Prop :=
  lower s = to_name o \/ (lower s = "config"%string /\ o = CONFIG_FILE).

(** [l] is obtained from [l'] by deleting elements. *)
Inductive subseq {A} : list A -> list A -> Prop :=
| subseq_nil : subseq [] []
| subseq_keep : forall x l l', subseq l l' -> subseq (x :: l) (x :: l')
| subseq_drop : forall x l l', subseq l l' -> subseq l (x :: l').

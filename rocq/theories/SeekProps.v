(** Theorems about the files that are searched for forbidden comments. *)
From Coq Require Import String Ascii List Bool Arith.
From Verif Require Import Base ConfigModel PathModel ConfigFileModel ConfigFileSpec MagicModel MagicSpec SeekModel SeekSpec SeekProofs SeekExamples.
Import ListNotations.
Local Open Scope string_scope.
Local Open Scope list_scope.

Theorem C143_searched : forall files q, In q (to_file_paths files) <-> given files q /\ exists r, q = (r ++ ".py")%string.
Proof. exact searched. Qed.
Print Assumptions C143_searched.
Theorem C143_linted_partial : forall files p t q r, In (p, t) files -> In q (py_files p t) -> q = (r ++ ".py")%string -> In q (to_file_paths files).
Proof. exact linted_searched. Qed.
Print Assumptions C143_linted_partial.
Example C143_example : to_file_paths homework = ["hw/a.py"; "hw/sub/c.py"; "d.py"] /\ flat_map (fun f => py_files (fst f) (snd f)) homework = ["hw/a.py"; "hw/sub/c.py"; "d.py"].
Proof. exact homework_searched. Qed.
Theorem C143_capital_refuted : exists p t q, In q (py_files p t) /\ ~ In q (to_file_paths [(p, t)]).
Proof. exact capital. Qed.
Print Assumptions C143_capital_refuted.
Theorem C143_name_refuted : forall infile, exists cmd g, make_config (Some "") [(IGNORE_INFILE_CONFIG_FOR, Some "all")] = Ok cmd /\ parse_infile_configs infile [("hw", File)] cmd = Ok g /\
  map (fun x => snd (snd x)) g = [["hw"]] /\ to_file_paths [("hw", File)] = [].
Proof. exact any_name. Qed.
Print Assumptions C143_name_refuted.
Theorem C143_reported_partial : forall contents files ignore q r i line l column text, given files q -> q = (r ++ ".py")%string -> nth_error (contents q) i = Some line -> asked ignore l ->
  comment l line column text -> l = PYLINT_L \/ ~ names_ib111 line -> exists m, In m (report_all contents files ignore) /\ m_path m = q /\ m_line m = S i.
Proof. exact all_reported. Qed.
Print Assumptions C143_reported_partial.
Example C143_reported_example : given homework "hw/sub/c.py" /\
  map (fun m => (m_path m, m_line m)) (report_all (fun _ => ["x = 1"; "y = 2  # noqa"]) homework ["all"]) = [("hw/a.py", 2); ("hw/sub/c.py", 2); ("d.py", 2)].
Proof. exact homework_reported. Qed.
Theorem C143_there : forall contents files ignore m, In m (report_all contents files ignore) ->
  given files (m_path m) /\ exists i line l, m_line m = S i /\ nth_error (contents (m_path m)) i = Some line /\ asked ignore l /\ comment l line (m_column m) (m_text m).
Proof. exact reported_there. Qed.
Print Assumptions C143_there.

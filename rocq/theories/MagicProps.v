(** Theorems about forbidden comments. *)
From Coq Require Import String Ascii List Bool Arith.
From Verif Require Import Base ConfigModel MagicModel MagicSpec MagicProofs MagicExamples.
Import ListNotations.
Local Open Scope string_scope.
Local Open Scope list_scope.
Local Open Scope nat_scope.

Theorem C141_found_partial : forall files ignore path lines i line l column text, In (path, lines) files -> nth_error lines i = Some line -> asked ignore l -> comment l line column text ->
  l = PYLINT_L \/ ~ names_ib111 line -> exists m, In m (report_infile_config files ignore) /\ m_path m = path /\ m_line m = S i /\ column <= m_column m.
Proof. exact found. Qed.
Print Assumptions C141_found_partial.
Example C141_found_example : comment FLAKE8_L "y = 2  # NoQA" 7 "NoQA" /\ comment PYLINT_L "from ib111 import z  #pylint:  disable=all" 21 "pylint:  disable" /\
  asked ["FLAKE8"] FLAKE8_L /\ asked ["all"] PYLINT_L.
Proof. exact file_comments. Qed.
Example C141_found_import_example : ~ names_ib111 "y = 2  # NoQA".
Proof. exact file_import. Qed.
Theorem C141_import_refuted : exists line, comment FLAKE8_L line 0 "flake8: noqa" /\ asked ["all"] FLAKE8_L /\ report_infile_config [("a.py", [line])] ["all"] = [] /\
  String.prefix "#" line = true.
Proof. exact in_the_comment. Qed.
Print Assumptions C141_import_refuted.
Theorem C141_skip_refuted : report_infile_config [("a.py", ["# pylint: skip-file"])] ["all"] = [] /\ report_infile_config [("a.py", ["# pylint: disable=all"])] ["all"] <> [].
Proof. exact skip_file. Qed.
Print Assumptions C141_skip_refuted.
Theorem C141_all_refuted : report_infile_config [("a.py", ["x  # noqa"])] ["Flake8"] <> [] /\ report_infile_config [("a.py", ["x  # noqa"])] ["All"] = [].
Proof. exact capital_all. Qed.
Print Assumptions C141_all_refuted.

Theorem C142_only_partial : forall files ignore m, In m (report_infile_config files ignore) ->
  exists lines i line l, In (m_path m, lines) files /\ m_line m = S i /\ nth_error lines i = Some line /\ asked ignore l /\ comment l line (m_column m) (m_text m) /\
    m_end m = String.length line /\ (l = PYLINT_L \/ ~ names_ib111 line).
Proof. exact only_comments. Qed.
Print Assumptions C142_only_partial.
Example C142_only_example : map (fun m => (m_line m, m_column m, m_text m)) (report_infile_config file ["all"]) = [(2, 7, "NoQA"); (3, 21, "pylint:  disable")].
Proof. exact file_reported. Qed.
Theorem C142_string_refuted : exists line, String.prefix "print('" line = true /\ report_infile_config [("a.py", [line])] ["all"] <> [] /\ line = "print('# noqa')".
Proof. exact no_comment. Qed.
Print Assumptions C142_string_refuted.

(** Examples of comments. *)
From Coq Require Import String Ascii List Bool Arith.
From Verif Require Import Base ConfigModel RegexModel MagicModel MagicSpec MagicProofs.
Import ListNotations.
Local Open Scope string_scope.
Local Open Scope list_scope.
Local Open Scope nat_scope.

(** A file with two comments, the second one after an import. *)
Definition file : list (string * list string) := [("a.py", ["x = 1"; "y = 2  # NoQA"; "from ib111 import z  #pylint:  disable=all"])].
Lemma file_comments : comment FLAKE8_L "y = 2  # NoQA" 7 "NoQA" /\ comment PYLINT_L "from ib111 import z  #pylint:  disable=all" 21 "pylint:  disable" /\
  asked ["FLAKE8"] FLAKE8_L /\ asked ["all"] PYLINT_L.
Proof.
  refine (conj _ (conj _ (conj _ _))).
  - exists "y = 2  ", " ", "". refine (conj eq_refl (conj eq_refl (conj _ (conj _ _)))); [cbn; unfold inline; intuition discriminate|cbn; unfold white; cbn; intuition|apply spelled_noqa; reflexivity].
  - exists "from ib111 import z  ", "", "=all". refine (conj eq_refl (conj eq_refl (conj _ (conj I _)))); [cbn; unfold inline; intuition discriminate|].
    apply (spelled_pylint "pylint:" "  " "disable"); [reflexivity|cbn; unfold white; cbn; intuition|left; reflexivity].
  - right. exists "FLAKE8". split; [left; reflexivity|reflexivity].
  - left. left. reflexivity.
Qed.
Lemma file_import : ~ names_ib111 "y = 2  # NoQA".
Proof. intro H. apply ib111_iff in H as [y H]. vm_compute in H. discriminate H. Qed.
Lemma file_reported : map (fun m => (m_line m, m_column m, m_text m)) (report_infile_config file ["all"]) = [(2, 7, "NoQA"); (3, 21, "pylint:  disable")].
Proof. vm_compute. reflexivity. Qed.

(** The words of the import in the comment itself. *)
Lemma in_the_comment : exists line, comment FLAKE8_L line 0 "flake8: noqa" /\ asked ["all"] FLAKE8_L /\ report_infile_config [("a.py", [line])] ["all"] = [] /\
  String.prefix "#" line = true.
Proof.
  exists "# flake8: noqa from ib111 import". refine (conj _ (conj _ (conj _ _))); [|left; left; reflexivity|vm_compute; reflexivity|reflexivity].
  exists "", " ", " from ib111 import". refine (conj eq_refl (conj eq_refl (conj I (conj _ _)))); [cbn; unfold white; cbn; intuition|].
  apply (spelled_flake8 "flake8:" " " "noqa"); [reflexivity|cbn; intuition|reflexivity].
Qed.
(** The other comment of pylint. *)
Lemma skip_file : report_infile_config [("a.py", ["# pylint: skip-file"])] ["all"] = [] /\ report_infile_config [("a.py", ["# pylint: disable=all"])] ["all"] <> [].
Proof. split; [vm_compute; reflexivity|]. vm_compute. discriminate. Qed.
(** Names of linters can have capital letters, all cannot. *)
Lemma capital_all : report_infile_config [("a.py", ["x  # noqa"])] ["Flake8"] <> [] /\ report_infile_config [("a.py", ["x  # noqa"])] ["All"] = [].
Proof. split; [vm_compute; discriminate|vm_compute; reflexivity]. Qed.
(** A text that is no comment. *)
Lemma no_comment : exists line, String.prefix "print('" line = true /\ report_infile_config [("a.py", [line])] ["all"] <> [] /\ line = "print('# noqa')".
Proof. exists "print('# noqa')". split; [reflexivity|]. split; [vm_compute; discriminate|reflexivity]. Qed.

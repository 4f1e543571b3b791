(** Examples of files that are searched. *)
From Coq Require Import String Ascii List Bool Arith.
From Verif Require Import Base ConfigModel PathModel ConfigFileModel ConfigFileSpec MagicModel MagicSpec SeekModel SeekSpec SeekProofs.
Import ListNotations.
Local Open Scope string_scope.
Local Open Scope list_scope.

(** A directory in a directory, and a file. *)
Definition homework : list (string * node) := [("hw", Dir [("a.py", File); ("b.txt", File); ("sub", Dir [("c.py", File)])]); ("d.py", File)].
Lemma homework_searched : to_file_paths homework = ["hw/a.py"; "hw/sub/c.py"; "d.py"] /\ flat_map (fun f => py_files (fst f) (snd f)) homework = ["hw/a.py"; "hw/sub/c.py"; "d.py"].
Proof. split; vm_compute; reflexivity. Qed.
Lemma capital : exists p t q, In q (py_files p t) /\ ~ In q (to_file_paths [(p, t)]).
Proof. exists "a.PY", File, "a.PY". split; [vm_compute; left; reflexivity|]. vm_compute. intros []. Qed.
(** A file with another name, with in-file configuration ignored on the command line. *)
Lemma any_name : forall infile, exists cmd g, make_config (Some "") [(IGNORE_INFILE_CONFIG_FOR, Some "all")] = Ok cmd /\ parse_infile_configs infile [("hw", File)] cmd = Ok g /\
  map (fun x => snd (snd x)) g = [["hw"]] /\ to_file_paths [("hw", File)] = [].
Proof.
  intro infile. eexists. eexists. refine (conj _ (conj _ (conj _ _))); [vm_compute; reflexivity|vm_compute; reflexivity|vm_compute; reflexivity|vm_compute; reflexivity].
Qed.
(** Each file has a comment in its second line. *)
Lemma homework_reported : given homework "hw/sub/c.py" /\ map (fun m => (m_path m, m_line m)) (report_all (fun _ => ["x = 1"; "y = 2  # noqa"]) homework ["all"]) = [("hw/a.py", 2); ("hw/sub/c.py", 2); ("d.py", 2)].
Proof. split; [exact (proj1 (proj1 (searched homework "hw/sub/c.py") ltac:(vm_compute; tauto)))|vm_compute; reflexivity]. Qed.

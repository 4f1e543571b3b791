(** Proofs about the files that are searched. *)
From Coq Require Import String Ascii List Bool Arith.
From Verif Require Import Base ConfigModel PathModel ConfigFileModel ConfigFileSpec MagicModel MagicSpec MagicProofs SeekModel SeekSpec.
Import ListNotations.
Local Open Scope string_scope.
Local Open Scope list_scope.

Definition ends (q : string) : bool := ends_with ".py" q.
Lemma ends_iff : forall p s, ends_with p s = true <-> exists r, s = (r ++ p)%string.
Proof.
  intro p. induction s as [|c s IH]; cbn [ends_with]; rewrite orb_true_iff, String.eqb_eq.
  - split; [intros [->|H]; [exists ""; reflexivity|discriminate H]|]. intros [[|d r] E]; [left; exact E|discriminate E].
  - rewrite IH. split; [intros [->|[r ->]]; [exists ""; reflexivity|exists (String c r); reflexivity]|].
    intros [[|d r] E]; [left; exact E|]. right. exists r. cbn [append] in E. congruence.
Qed.
Lemma below_dir : forall path es q, In q (below path (Dir es)) <-> exists name t, In (name, t) es /\ In q (below (pjoin path name) t).
Proof.
  intros path es q. induction es as [|(name, t) es IH].
  - split; [intros []|intros (n & t & [] & _)].
  - cbn [below] in IH |- *. rewrite in_app_iff, IH. split.
    + intros [H|(n & u & I & H)]; [exists name, t; split; [left; reflexivity|exact H]|exists n, u; split; [right; exact I|exact H]].
    + intros (n & u & [E|I] & H); [left; assert (n = name) as -> by congruence; assert (u = t) as -> by congruence; exact H|right; exists n, u; split; [exact I|exact H]].
Qed.
Lemma reaches_below : forall t path q, reaches t path q -> ends q = true -> In q (below path t).
Proof.
  intros t path q H K. induction H as [path|es name t path q I H IH]; [cbn [below]; unfold ends in K; rewrite K; left; reflexivity|]. apply below_dir. exists name, t. split; [exact I|exact (IH K)].
Qed.
Fixpoint node_ind' (P : node -> Prop) (F : P File) (D : forall es, (forall name t, In (name, t) es -> P t) -> P (Dir es)) (t : node) : P t :=
  match t with
  | File => F
  | Dir es => D es ((fix go (l : list (string * node)) : forall name t, In (name, t) l -> P t :=
      match l with
      | [] => fun name t (I : In (name, t) []) => match I with end
      | (n, u) :: r => fun name t (I : In (name, t) ((n, u) :: r)) =>
          match I with
          | or_introl E => eq_ind u P (node_ind' P F D u) t (f_equal snd E)
          | or_intror J => go r name t J
          end
      end) es)
  end.
Lemma below_reaches : forall t path q, In q (below path t) -> reaches t path q /\ ends q = true.
Proof.
  intros t. induction t as [|es IH] using node_ind'; intros path q H.
  - cbn [below] in H. fold (ends path) in H. destruct (ends path) eqn:K; [|destruct H]. destruct H as [<-|[]]. split; [constructor|exact K].
  - apply below_dir in H as (name & t & I & H). destruct (IH name t I _ _ H) as [R K]. split; [exact (reaches_in es name t path q I R)|exact K].
Qed.
Lemma join_empty : forall p, pjoin "" p = p.
Proof. intro p. unfold pjoin. destruct (isabs p); reflexivity. Qed.
Theorem searched : forall files q, In q (to_file_paths files) <-> given files q /\ exists r, q = (r ++ ".py")%string.
Proof.
  intros files q. unfold to_file_paths, given. rewrite in_flat_map. rewrite <- ends_iff. fold (ends q). split.
  - intros ((p, t) & I & H). cbn [fst snd] in H. rewrite join_empty in H. apply below_reaches in H as [R K]. split; [exists p, t; split; [exact I|exact R]|exact K].
  - intros ((p & t & I & R) & K). exists (p, t). split; [exact I|]. cbn [fst snd]. rewrite join_empty. exact (reaches_below _ _ _ R K).
Qed.
Lemma py_reaches : forall t path q, In q (py_files path t) -> reaches t path q.
Proof.
  intros t. induction t as [|es IH] using node_ind'; intros path q H.
  - cbn [py_files] in H. destruct (python_name (basename path)); [|destruct H]. destruct H as [<-|[]]. constructor.
  - cbn [py_files] in H. apply in_flat_map in H as ((name, t) & I & H). exact (reaches_in es name t path q I (IH name t I _ _ H)).
Qed.
Theorem linted_searched : forall files p t q r, In (p, t) files -> In q (py_files p t) -> q = (r ++ ".py")%string -> In q (to_file_paths files).
Proof. intros files p t q r I H E. apply searched. split; [exists p, t; split; [exact I|exact (py_reaches t p q H)]|exists r; exact E]. Qed.
Theorem all_reported : forall contents files ignore q r i line l column text, given files q -> q = (r ++ ".py")%string -> nth_error (contents q) i = Some line -> asked ignore l ->
  comment l line column text -> l = PYLINT_L \/ ~ names_ib111 line -> exists m, In m (report_all contents files ignore) /\ m_path m = q /\ m_line m = S i.
Proof.
  intros contents files ignore q r i line l column text G E N A C X. unfold report_all.
  destruct (found (map (fun path => (path, contents path)) (to_file_paths files)) ignore q (contents q) i line l column text) as (m & I & P & M & _); try assumption.
  - apply in_map_iff. exists q. split; [reflexivity|]. apply searched. split; [exact G|exists r; exact E].
  - exists m. split; [exact I|]. split; [exact P|exact M].
Qed.
Theorem reported_there : forall contents files ignore m, In m (report_all contents files ignore) ->
  given files (m_path m) /\ exists i line l, m_line m = S i /\ nth_error (contents (m_path m)) i = Some line /\ asked ignore l /\ comment l line (m_column m) (m_text m).
Proof.
  intros contents files ignore m H. unfold report_all in H. apply only_comments in H as (lines & i & line & l & I & M & N & A & C & _).
  apply in_map_iff in I as (q & E & I). assert (m_path m = q) as -> by congruence. assert (lines = contents q) as -> by congruence. apply searched in I as [G _].
  split; [exact G|]. exists i, line, l. split; [exact M|]. split; [exact N|]. split; [exact A|exact C].
Qed.

(** The texts of the messages that merge comparisons have matching parentheses. *)
From Coq Require Import String Ascii List Bool Arith NArith ZArith Lia.
From Verif Require Import Base PyModel PySpec PyProofs IfModel IfSpec IfProofs FoldModel FoldSpec FoldProofs LocalModel LocalSpec MergeModel MergeSpec MergeProofs.
Import ListNotations.
Local Open Scope string_scope.
Local Open Scope list_scope.

Definition bracket_weight (t : token) : Z := match t with TLP | TLB => 1 | TRP | TRB => -1 | _ => 0 end%Z.
Definition total (ts : text) : Z := fold_right (fun t z => (bracket_weight t + z)%Z) 0%Z ts.
Lemma total_app a b : total (a ++ b) = (total a + total b)%Z.
Proof. induction a as [|t a IH]; [reflexivity|]. cbn [List.app total fold_right] in *. fold (total a) in *. fold (total (a ++ b)) in *. lia. Qed.
Lemma balanced_total t : balanced t -> total t = 0%Z.
Proof.
  induction 1 as [|t A B C D|t B IH|t B IH|a b A IHA B IHB]; [reflexivity| | | |rewrite total_app; lia].
  - destruct t; try reflexivity; contradiction.
  - cbn [total fold_right]. fold (total (t ++ [TRP])). rewrite total_app, IH. reflexivity.
  - cbn [total fold_right]. fold (total (t ++ [TRB])). rewrite total_app, IH. reflexivity.
Qed.
Lemma balanced_cons t r : t <> TLP -> t <> TRP -> t <> TLB -> t <> TRB -> balanced r -> balanced (t :: r).
Proof. intros. change (t :: r) with ([t] ++ r). apply balanced_app; [apply balanced_token; assumption|assumption]. Qed.
Lemma balanced_wrap p q s t : balanced t -> balanced (wrap p q s t).
Proof. intro B. unfold wrap. destruct (_ || _); [apply balanced_paren; exact B|exact B]. Qed.
Lemma balanced_sep s l : balanced s -> Forall balanced l -> balanced (sep_by s l).
Proof.
  intros S F. induction F as [|t l B F IH]; [constructor|]. destruct l as [|u l]; [exact B|]. change (sep_by s (t :: u :: l)) with (t ++ s ++ sep_by s (u :: l)).
  apply balanced_app; [exact B|]. apply balanced_app; assumption.
Qed.
Lemma balanced_cmp c : balanced (cmp_tokens c).
Proof. destruct c; cbn [cmp_tokens]; repeat (apply balanced_cons; try discriminate); constructor. Qed.
Lemma balanced_as_string e : balanced (as_string e).
Proof.
  induction e as [x|c|o a IHa|o a b IHa IHb|o vs IHvs|a ops IHa IHops|g args IHg IHargs|a x IHa|a i IHa IHi|c a b IHc IHa IHb|n] using expr_ind'; cbn [as_string].
  - apply balanced_token; discriminate.
  - apply balanced_token; discriminate.
  - apply balanced_cons; try (destruct o; discriminate). apply balanced_wrap. exact IHa.
  - apply balanced_app; [apply balanced_wrap; exact IHa|]. cbn [List.app]. apply balanced_cons; try discriminate. apply balanced_wrap. exact IHb.
  - apply balanced_sep; [destruct o; apply balanced_token; discriminate|]. apply Forall_map. eapply Forall_impl; [|exact IHvs]. intros v B. apply balanced_wrap. exact B.
  - apply balanced_app; [apply balanced_wrap; exact IHa|]. induction IHops as [|cv ops B F IH]; [constructor|]. cbn [map concat]. apply balanced_app; [|exact IH].
    apply balanced_app; [apply balanced_cmp|apply balanced_wrap; exact B].
  - apply balanced_app; [apply balanced_wrap; exact IHg|]. apply balanced_paren. apply balanced_sep; [apply balanced_token; discriminate|]. apply Forall_map. exact IHargs.
  - apply balanced_app; [|apply balanced_cons; try discriminate; apply balanced_token; discriminate].
    destruct a as [| c0| | | | | | | | | ]; try (apply balanced_wrap; exact IHa). destruct c0; try (apply balanced_wrap; exact IHa). apply balanced_paren. exact IHa.
  - apply balanced_app; [apply balanced_wrap; exact IHa|]. apply balanced_bracket. exact IHi.
  - repeat (first [apply balanced_app|apply balanced_cons; try discriminate]); try (apply balanced_wrap; assumption); try constructor; assumption.
  - apply balanced_token; discriminate.
Qed.
Lemma balanced_value v : balanced (value_text v).
Proof.
  destruct v; cbn [value_text]; try constructor; try discriminate. unfold int_text. destruct (Z.ltb z 0); [apply balanced_cons; try discriminate|]; apply balanced_token; discriminate.
Qed.

Section Balance.
  Variable H : host.
  Definition sides_one_call (vs : list expr) : Prop := forall a c b, List.In (Compare a [(c, b)]) vs -> one_call a /\ one_call b.
  Lemma switch_balanced e1 c e2 sw q : balanced e1 -> balanced e2 -> switch_if_necessary e1 c e2 sw = Ok q -> balanced q.
  Proof.
    intros A B. unfold switch_if_necessary. destruct sw; [destruct (switch c); [cbn [bind]|discriminate]|]; intro E; injection E as <-;
    repeat (first [apply balanced_app|apply balanced_cmp]); assumption.
  Qed.
  Theorem max_min_balanced I o vs ms q t : merge_checks I H o vs = Ok (ms, Some (q, t)) -> balanced q /\ (sides_one_call vs -> balanced t).
  Proof.
    intros E. unfold merge_checks in E. destruct (collect I H o _ vs) as [s|] eqn:C; [|discriminate]. cbn [bind] in E. destruct s as [s|]; [|discriminate].
    destruct (collect_kept H I o _ vs s vs (fun x => fun i => i) C) as [A B]; [intros ? ? ? ? ? []|intros ? ? ? ? ? []|].
    destruct (max_min (co_numbers s) (co_others s) o) as [m|] eqn:M; [|discriminate]. cbn [bind] in E. injection E as _ ->. unfold max_min in M.
    destruct (choose (co_numbers s) (co_others s)) as [ch|] eqn:CS; [|discriminate]. destruct (choose_kept _ _ _ _ _ A B CS) as (F2 & L2 & NB).
    destruct ch as [e1 c ts bs num]. cbn [ch_expr ch_cmp ch_others ch_switched ch_number] in *.
    set (fn := if match o with And => is_greater c | Or => is_less c end then "max" else "min") in *.
    assert (FN : fn = "max" \/ fn = "min") by (unfold fn; destruct (match o with And => is_greater c | Or => is_less c end); auto). clearbody fn.
    assert (B1 : balanced e1).
    { destruct F2 as [|t' b ts bs EN F2]; [cbn in L2; lia|]. destruct EN as (x & y & -> & _). apply balanced_as_string. }
    assert (BT : Forall balanced ts).
    { clear -F2. induction F2 as [|t b ts bs EN F2 IH]; constructor; [|exact IH]. destruct EN as (x & y & _ & -> & _). apply balanced_as_string. }
    assert (BN : forall t b, num = Some (t, b) -> balanced t).
    { intros t' b K. destruct (NB _ _ K) as (x & y & _ & (v & _ & _ & ->) & _). apply balanced_value. }
    destruct (original_group e1 c ts bs num o) as [g|] eqn:OG; [|discriminate]. cbn [bind] in M.
    destruct (put_into fn e1 c ts num bs) as [st|] eqn:PI; [|discriminate]. cbn [bind] in M. injection M as <- <-. split.
    - unfold original_group in OG. destruct (switch_all e1 c ts bs) as [l|] eqn:SA; [|discriminate]. cbn [bind] in OG.
      assert (BL : Forall balanced l).
      { clear -SA BT B1. revert bs l SA. induction BT as [|t ts B BT IH]; intros bs l SA; cbn [switch_all] in SA; [injection SA as <-; constructor|].
        destruct bs as [|b bs]; [discriminate|]. destruct (switch_if_necessary e1 c t b) as [x|] eqn:S1; [|discriminate]. cbn [bind] in SA.
        destruct (switch_all e1 c ts bs) as [r|] eqn:S2; [|discriminate]. cbn [bind] in SA. injection SA as <-. constructor; [|eapply IH; exact S2]. exact (switch_balanced _ _ _ _ _ B1 B S1). }
      assert (BO : balanced [bool_token o]) by (destruct o; apply balanced_token; discriminate).
      destruct num as [[t' b]|]; [|injection OG as <-; apply balanced_sep; assumption].
      destruct (switch_if_necessary e1 c t' b) as [x|] eqn:S1; [|discriminate]. cbn [bind] in OG. injection OG as <-. apply balanced_sep; [exact BO|]. apply Forall_app. split; [exact BL|].
      constructor; [|constructor]. exact (switch_balanced _ _ _ _ _ B1 (BN _ _ eq_refl) S1).
    - intro OC. unfold put_into in PI. set (args := map (fun t => if starts_with fn t then stripped t else t) ts ++ match num with Some (t, _) => [t] | None => [] end) in PI.
      assert (BA : Forall balanced args).
      { unfold args. apply Forall_app. split.
        - clear -F2 OC FN. induction F2 as [|t b ts bs EN F2 IH]; cbn [map]; constructor; [|exact IH].
          destruct EN as (x & y & _ & TY & EN). unfold is_text in TY. subst t. destruct (starts_with fn (as_string y)) eqn:SW; [|apply balanced_as_string].
          apply starts_inv in SW. destruct SW as (rest & SW).
          assert (OY : one_call y) by (destruct b; [destruct EN as (d & _ & I); apply (OC _ _ _ I)|destruct EN as (_ & I); apply (OC _ _ _ I)]).
          destruct (OY fn rest FN SW) as (ar & ->). rewrite stripped_call. apply balanced_sep; [apply balanced_token; discriminate|]. apply Forall_map, Forall_forall. intros a _. apply balanced_as_string.
        - destruct num as [[t' b]|]; [|constructor]. constructor; [exact (BN _ _ eq_refl)|constructor]. }
      destruct bs as [|b0 bs]; [discriminate|]. set (res := [TName fn; TLP] ++ sep_by [TComma] args ++ [TRP]) in *.
      assert (BR : balanced res).
      { unfold res. cbn [List.app]. apply balanced_cons; try discriminate. apply balanced_paren. apply balanced_sep; [apply balanced_token; discriminate|exact BA]. }
      clearbody res. destruct (_ || _); [destruct (switch c) as [d|]; [cbn [bind] in PI|discriminate]|]; injection PI as <-; repeat (first [apply balanced_app|apply balanced_cmp]); assumption.
  Qed.
End Balance.

(** Examples of modifications in functions. *)
From Coq Require Import String List Bool Arith.
From Verif Require Import Base SureModel SureSpec SureProofs.
Import ListNotations.
Local Open Scope list_scope.
Local Open Scope nat_scope.

(** Functions 0 and 1 call each other, 1 also calls 2; the names are those of the functions. *)
Definition mutual (f : nat) : list item :=
  match f with 0 => [Call 1 [Fun 1]] | 1 => [Call 0 [Fun 0]; Call 2 [Fun 2]] | _ => [] end.
(** The same, but 2 changes the variable. *)
Definition mutual_change (f : nat) : list item :=
  match f with 0 => [Call 1 [Fun 1]] | 1 => [Call 0 [Fun 0]; Call 2 [Fun 2]] | 2 => [Change] | _ => [] end.
Lemma mutual_same : forall l x ds d, code mutual [Call 0 [Fun 0]] l -> In (Call x ds) l -> In d ds -> d = Fun x.
Proof.
  intros l x ds d [->|([|[|f]] & ->)] I D; cbn in I.
  - destruct I as [I|[]]. assert (ds = [Fun 0]) as -> by congruence. assert (x = 0) as -> by congruence. destruct D as [<-|[]]. reflexivity.
  - destruct I as [I|[]]. assert (ds = [Fun 1]) as -> by congruence. assert (x = 1) as -> by congruence. destruct D as [<-|[]]. reflexivity.
  - destruct I as [I|[I|[]]].
    + assert (ds = [Fun 0]) as -> by congruence. assert (x = 0) as -> by congruence. destruct D as [<-|[]]. reflexivity.
    + assert (ds = [Fun 2]) as -> by congruence. assert (x = 2) as -> by congruence. destruct D as [<-|[]]. reflexivity.
  - destruct I.
Qed.
Lemma mutual_meets : one_meaning mutual [Call 0 [Fun 0]] /\ no_methods mutual [Call 0 [Fun 0]] /\ names_among mutual [Call 0 [Fun 0]] [0; 1; 2] /\
  may_be_modified_in mutual false 4 [Call 0 [Fun 0]] = Ok false.
Proof.
  refine (conj _ (conj _ (conj _ _))).
  - intros l l' x ds ds' d d' A B I J D D'. rewrite (mutual_same l x ds d A I D), (mutual_same l' x ds' d' B J D'). reflexivity.
  - intros l fs [->|([|[|f]] & ->)] I; cbn in I; [destruct I as [I|[]]|destruct I as [I|[]]|destruct I as [I|[I|[]]]|destruct I]; discriminate I.
  - intros l x ds [->|([|[|f]] & ->)] I; cbn in I; [destruct I as [I|[]]|destruct I as [I|[]]|destruct I as [I|[I|[]]]|destruct I]; assert (X := f_equal (fun i => match i with Call y _ => y | _ => 0 end) I); cbn in X; subst x; cbn; tauto.
  - vm_compute. reflexivity.
Qed.
Lemma mutual_change_found : may_be_modified_in mutual_change false 4 [Call 0 [Fun 0]] = Ok true /\ may_be_modified_in mutual_change false 1 [] = Ok false.
Proof. split; vm_compute; reflexivity. Qed.

(** A name with two functions, the second changes the variable. *)
Definition two (f : nat) : list item := match f with 1 => [Change] | _ => [] end.
Lemma two_definitions : exists body_of l fuel, no_methods body_of l /\ may_be_modified_in body_of false fuel l = Ok false /\
  In (Call 0 [Fun 0; Fun 1]) l /\ In Change (body_of 1).
Proof.
  exists two, [Call 0 [Fun 0; Fun 1]], 3. refine (conj _ (conj _ (conj _ _))); [|vm_compute; reflexivity|left; reflexivity|left; reflexivity].
  intros l fs [->|([|[|f]] & ->)] I; cbn in I; [destruct I as [I|[]]; discriminate I|destruct I|destruct I as [I|[]]; discriminate I|destruct I].
Qed.
(** Function 0 calls 1, which calls its parameter, with the name of function 0. *)
Definition parameter (f : nat) : list item := match f with 0 => [Call 1 [Fun 1]] | 1 => [Call 0 [Unknown]] | _ => [] end.
Lemma same_name : exists body_of l fuel, no_methods body_of l /\ may_be_modified_in body_of false fuel l = Ok false /\
  (forall b x ds, code body_of l b -> In (Call x ds) b -> length ds = 1) /\ may_change body_of l.
Proof.
  exists parameter, [Call 0 [Fun 0]], 4. refine (conj _ (conj _ (conj _ _))); [|vm_compute; reflexivity| |].
  - intros l fs [->|([|[|f]] & ->)] I; cbn in I; [destruct I as [I|[]]|destruct I as [I|[]]|destruct I as [I|[]]|destruct I]; discriminate I.
  - intros l x ds [->|([|[|f]] & ->)] I; cbn in I; [destruct I as [I|[]]|destruct I as [I|[]]|destruct I as [I|[]]|destruct I];
      assert (X := f_equal (fun i => match i with Call _ e => e | _ => [] end) I); cbn in X; subst ds; reflexivity.
  - apply (change_called _ _ 0 [Fun 0] 0); [left; reflexivity|left; reflexivity|]. apply (change_called _ _ 1 [Fun 1] 1); [left; reflexivity|left; reflexivity|].
    apply (change_unknown _ _ 0 [Unknown]); left; reflexivity.
Qed.
Lemma a_method : exists body_of l fuel, one_meaning body_of l /\ may_be_modified_in body_of false fuel l = Ok false /\ In (Method [1]) l /\ In Change (body_of 1).
Proof.
  exists two, [Method [1]], 2. refine (conj _ (conj _ (conj _ _))); [|vm_compute; reflexivity|left; reflexivity|left; reflexivity].
  intros l l' x ds ds' d d' [->|([|[|f]] & ->)] _ I; cbn in I; [destruct I as [I|[]]; discriminate I|destruct I|destruct I as [I|[]]; discriminate I|destruct I].
Qed.
(** A mutable variable is always said to be modified. *)
Lemma mutable_always : exists body_of l, (forall fuel, may_be_modified_in body_of true fuel l = Ok true) /\ ~ may_change body_of l.
Proof.
  exists mutual, []. split; [intro fuel; reflexivity|]. intro H. inversion H; subst; match goal with H : In _ [] |- _ => destruct H end.
Qed.

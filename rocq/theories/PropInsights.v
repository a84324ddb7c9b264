(** * Properties C09-C10: insights.py *)
From Verif Require Import Np NpFacts MInsights SInsights PInsights Inst.

(** C09. The generator terminates (within [length array] iterations) and yields exactly the greedy
    exclusion order of SInsights.v. *)
Theorem C09_lowest_is_greedy : forall (A : Type) (NA : NumOps A) (OA : OrdLaws A)
  (array : list (num A)) (d fuel : nat), array <> [] -> length array <= fuel ->
  exists out, lowest_value_idxs fuel array (Z.of_nat d) = Ok out /\ greedy nltb array d [] out.
Proof. exact (@C09_lemma). Qed.
Print Assumptions C09_lowest_is_greedy.

(** Hence: values in non-decreasing order, yields pairwise more than [d] apart and finite, and every finite
    position within [d] of a yielded one whose value is not larger. *)
Theorem C09_order_and_cover : forall (A : Type) (NA : NumOps A) (OA : OrdLaws A)
  (array : list (num A)) (d fuel : nat) out,
  array <> [] -> length array <= fuel ->
  lowest_value_idxs fuel array (Z.of_nat d) = Ok out ->
  (forall p q i j v w, nth_error out p = Some i -> nth_error out q = Some j -> p < q ->
     nth_error array i = Some (Fin v) -> nth_error array j = Some (Fin w) -> nltb w v = false) /\
  (forall p q i j, nth_error out p = Some i -> nth_error out q = Some j -> p <> q -> apart d i j) /\
  (forall i, In i out -> exists v, nth_error array i = Some (Fin v)) /\
  (forall i v, nth_error array i = Some (Fin v) ->
     exists j w, In j out /\ nth_error array j = Some (Fin w) /\ ~ apart d i j /\ nltb v w = false).
Proof. exact (@C09_consequences_lemma). Qed.
Print Assumptions C09_order_and_cover.

Example C09_case : lowest_value_idxs 7
  [Fz 3; NaN; Fz 1; Fz 1; NInf; Fz 2; PInf] 1 = Ok [2; 5; 0].
Proof. vm_compute. reflexivity. Qed.

(** C10. The mirrored order for [highest_value_idxs]. *)
Theorem C10_highest_is_greedy : forall (A : Type) (NA : NumOps A) (OA : OrdLaws A) (OP : OppLaws A)
  (array : list (num A)) (d fuel : nat), array <> [] -> length array <= fuel ->
  exists out, highest_value_idxs fuel array (Z.of_nat d) = Ok out /\
    greedy (fun a b => nltb b a) array d [] out.
Proof. exact (@C10_lemma). Qed.
Print Assumptions C10_highest_is_greedy.

Theorem C10_order_and_cover : forall (A : Type) (NA : NumOps A) (OA : OrdLaws A) (OP : OppLaws A)
  (array : list (num A)) (d fuel : nat) out,
  array <> [] -> length array <= fuel ->
  highest_value_idxs fuel array (Z.of_nat d) = Ok out ->
  (forall p q i j v w, nth_error out p = Some i -> nth_error out q = Some j -> p < q ->
     nth_error array i = Some (Fin v) -> nth_error array j = Some (Fin w) -> nltb v w = false) /\
  (forall p q i j, nth_error out p = Some i -> nth_error out q = Some j -> p <> q -> apart d i j) /\
  (forall i, In i out -> exists v, nth_error array i = Some (Fin v)) /\
  (forall i v, nth_error array i = Some (Fin v) ->
     exists j w, In j out /\ nth_error array j = Some (Fin w) /\ ~ apart d i j /\ nltb w v = false).
Proof. exact (@C10_consequences_lemma). Qed.
Print Assumptions C10_order_and_cover.

#[export] Instance OppZ : OppLaws Z.
Proof. constructor. intros a b. unfold nltb, nsub, nzero; simpl. apply Bool.eq_true_iff_eq. rewrite !Z.ltb_lt. lia. Qed.

Example C10_case : highest_value_idxs 7
  [Fz 3; NaN; Fz 1; Fz 9; NInf; Fz 2; PInf] 1 = Ok [3; 0; 5].
Proof. vm_compute. reflexivity. Qed.

(** * Properties C46-C48: context managers and the contextual matrix profile *)
From Coq Require Import QArith Permutation Sorting.Sorted.
From Verif Require Import Np NpFacts Mat SLog MContext SContext PContext PCmp PCmpRun Inst.
Open Scope nat_scope.

(** C46. The lookups return exactly (with multiplicity) the given non-empty ranges that intersect [a, b), each with the
    id of the context it was given for; whatever tie order [np.argsort] uses. *)
Theorem C46_query_contexts : forall argsort series query g a b,
  sorts argsort -> gsm_new argsort series query = Ok g ->
  exists l, gsm_query g a b = Ok l /\ Permutation l (filter (intersects a b) (all_given (query_input series query))).
Proof. intros argsort series query g a b Hs E. exact (gsm_query_ok a b (gsm_new_ok series query Hs E)). Qed.
Print Assumptions C46_query_contexts.

Theorem C46_series_contexts : forall argsort series query g a b,
  sorts argsort -> gsm_new argsort series query = Ok g -> (exists s e id, given series s e id /\ (s < e)%Z) ->
  exists l, gsm_series g a b = Ok l /\ Permutation l (filter (intersects a b) (all_given series)).
Proof. exact C46_series_lemma. Qed.
Print Assumptions C46_series_contexts.

(** The reference list in elementary terms: a range of context [id] is in it iff it was given for [id] and shares a
    position with [a, b). *)
Theorem C46_meaning : forall input a b s e id, (a < b)%Z ->
  In (s, e, id) (filter (intersects a b) (all_given input)) <->
  given input s e id /\ exists x, (s <= x < e)%Z /\ (a <= x < b)%Z.
Proof. exact C46_meaning_lemma. Qed.
Print Assumptions C46_meaning.

(** The manager can be built exactly when all ranges have step 1 and a non-negative start and at least one query range
    is non-empty. *)
Theorem C46_init : forall argsort series query, sorts argsort ->
  (exists g, gsm_new argsort series query = Ok g) <->
  (ranges_valid series /\ ranges_valid (query_input series query) /\
   exists s e id, given (query_input series query) s e id /\ (s < e)%Z).
Proof. exact C46_init_lemma. Qed.
Print Assumptions C46_init.

(** An executable argsort: insertion sort of the positions *)
Fixpoint ins (key : nat -> Z) (i : nat) (l : list nat) : list nat :=
  match l with [] => [i] | j :: l' => if (key i <=? key j)%Z then i :: l else j :: ins key i l' end.
Definition zargsort (l : list Z) : list nat := fold_right (ins (fun i => nth i l 0%Z)) [] (seq 0 (length l)).

Lemma ins_perm key i l : Permutation (ins key i l) (i :: l).
Proof. induction l as [|j l IH]; cbn [ins]; [reflexivity|]. destruct (_ <=? _)%Z; [reflexivity|]. rewrite IH. apply perm_swap. Qed.
Lemma ins_sorted key i l : StronglySorted (fun a b => (key a <= key b)%Z) l -> StronglySorted (fun a b => (key a <= key b)%Z) (ins key i l).
Proof.
  induction 1 as [|j l Hl IH Hj]; cbn [ins]; [repeat constructor|]. destruct (Z.leb_spec (key i) (key j)).
  - constructor; [constructor; assumption|]. constructor; [assumption|]. eapply Forall_impl; [|exact Hj]. cbn beta. intros; lia.
  - constructor; [exact IH|]. apply Forall_forall. intros x Hx. apply (Permutation_in _ (ins_perm key i l)) in Hx.
    destruct Hx as [<-|Hx]; [lia|]. apply (proj1 (Forall_forall _ _) Hj x Hx).
Qed.
(** The assumption on [np.argsort] is satisfiable. *)
Theorem C46_argsort_exists : sorts zargsort.
Proof.
  intro l. unfold zargsort. set (key := fun i => nth i l 0%Z).
  assert (P : forall s, Permutation (fold_right (ins key) [] s) s).
  { induction s as [|x s IH]; cbn [fold_right]; [reflexivity|]. rewrite ins_perm. constructor. exact IH. }
  assert (S : forall s, StronglySorted (fun a b => (key a <= key b)%Z) (fold_right (ins key) [] s)).
  { induction s as [|x s IH]; cbn [fold_right]; [constructor|]. apply ins_sorted, IH. }
  split; [apply P|]. intros p q i j v w Hpq Hi Hj Hv Hw.
  assert (key i <= key j)%Z.
  { revert p q Hpq Hi Hj. induction (S (seq 0 (length l))) as [|x r _ IH Hx]; intros p q Hpq Hi Hj; [destruct p; discriminate|].
    destruct q; [lia|]. destruct p; cbn [nth_error] in *.
    - injection Hi as ->. apply (proj1 (Forall_forall _ _) Hx j). eapply nth_error_In; exact Hj.
    - apply (IH p q); [lia|assumption|assumption]. }
  unfold key in H. rewrite (nth_error_nth _ _ _ Hv), (nth_error_nth _ _ _ Hw) in H. exact H.
Qed.
Print Assumptions C46_argsort_exists.

Definition ctx_case : list ctx_el :=
  [One (mkRange 4 7 1); Many [mkRange 0 2 1; mkRange 9 12 1]; One (mkRange 3 3 1); One (mkRange 1 5 1)].
Example C46_case :
  (do g <- gsm_new zargsort ctx_case None; do q <- gsm_query g 0 4; do r <- gsm_query g 5 12; do t <- gsm_series g 2 5;
   do u <- gsm_query g 2 5; do v <- gsm_query g 0 12; Ok (q, r, t, u, v)) =
  Ok ([(0, 2, 1%nat); (1, 5, 3%nat)], [(4, 7, 0%nat); (9, 12, 1%nat)], [(4, 7, 0%nat); (1, 5, 3%nat)],
      [(4, 7, 0%nat); (1, 5, 3%nat)], [(4, 7, 0%nat); (0, 2, 1%nat); (9, 12, 1%nat); (1, 5, 3%nat)])%Z.
Proof. vm_compute. reflexivity. Qed.

(** C47. Static contexts, any sequence of complete NaN-free diagonals and columns. *)
Theorem C47_rectangle_minimum : forall (A : Type) (NA : NumOps A) (OL : OrdLaws A)
    argsort series query g h w (memn : nat -> list (Np.num A)) memz sf es,
  sorts argsort -> gsm_new argsort series query = Ok g ->
  (exists s e id, given series s e id /\ (s < e)%Z) ->
  0 < h -> (1 <= sf)%Q -> (sf <= 2)%Q -> Forall (full_event h w) es -> Forall no_shift es ->
  exists H W s0 s, gsm_shape g = Ok (H, W) /\ cm_init gsm_ops memn memz sf g h w = Ok s0 /\ cm_run gsm_ops s0 es = Ok s /\
    (forall i x, in_context (query_input series query) i x -> i < H) /\ (forall j x, in_context series j x -> j < W) /\
    forall i j, i < H -> j < W -> exists v q r,
      dv_get (cm_dist s) i j = Ok v /\ dv_get (cm_mq s) i j = Ok q /\ dv_get (cm_ms s) i j = Ok r /\
      rect_best (log es) (fun r c => in_context (query_input series query) i r /\ in_context series j c) v q r.
Proof. exact (@C47_lemma). Qed.
Print Assumptions C47_rectangle_minimum.

(** ... which determines the stored distance. *)
Theorem C47_unique : forall (A : Type) (NA : NumOps A) (OL : OrdLaws A) (L : list (cell (Np.num A))) R v q r v' q' r',
  rect_best L R v q r -> rect_best L R v' q' r' -> v = v'.
Proof. exact (@rect_best_unique). Qed.
Print Assumptions C47_unique.

Definition no_mem {T} (_ : nat) : list T := [].
Definition cm_tables {A M} (s : @cm A M) := (dv_view (cm_dist s), dv_view (cm_mq s), dv_view (cm_ms s)).

(** Contexts overlap, have several ranges and reach beyond the 3 x 4 matrix; columns of the tables are listed. *)
Example C47_case :
  (do g <- gsm_new zargsort [One (mkRange 0 2 1); Many [mkRange 1 2 1; mkRange 3 9 1]] (Some [One (mkRange 0 3 1); One (mkRange 2 7 1)]);
   do s <- cm_init gsm_ops no_mem no_mem 2 g 3 4;
   do s <- cm_run gsm_ops s [EDiag 1 [[Fz 5; Fz 3; Fz 4]]; ECol 0 [[Fz 9; Fz 8; Fz 7]]; EDiag (-2) [[Fz 6]]];
   Ok (cm_tables s)) =
  Ok ([[Fz 5; Fz 6]; [Fz 4; Fz 4]], [[0; 2]; [2; 2]]%Z, [[1; 0]; [3; 3]]%Z).
Proof. vm_compute. reflexivity. Qed.

(** C48. A streaming manager whose contexts are fixed in absolute positions: after every history in which no query
    context was dropped (query shifts inside a context, arbitrary series shifts), entry (i, j) holds the minimum for
    query context i and series context j + ks, where ks contexts were dropped.
    Missing from the full statement: histories that drop query contexts, for which it is false (below). *)
Theorem C48_shifts_partial : forall (A : Type) (NA : NumOps A) (OL : OrdLaws A) (M : Type) (MO : ManagerOps M)
    h w H W QA SA inv, stream_manager MO h w H W QA SA inv -> 0 < h -> 0 < W ->
  forall (memn : nat -> list (Np.num A)) memz sf m0 es m ks,
  inv m0 0%Z 0%Z 0 0 -> man_shape MO m0 = Ok (H, W) -> (1 <= sf)%Q -> (sf <= 2)%Q ->
  Forall (full_event h w) es -> man_after MO m0 es = Ok (m, 0, ks) ->
  exists s0 s, cm_init MO memn memz sf m0 h w = Ok s0 /\ cm_run MO s0 es = Ok s /\
    forall i j, i < H -> j < W -> exists v q r,
      dv_get (cm_dist s) i j = Ok v /\ dv_get (cm_mq s) i j = Ok q /\ dv_get (cm_ms s) i j = Ok r /\
      rect_best (log es) (fun r c => QA i r /\ SA (j + ks) c) v q r.
Proof. exact (@cm_run_lemma). Qed.
Print Assumptions C48_shifts_partial.

(** The contract is satisfiable: contexts that are blocks of fixed length. *)
Theorem C48_block_manager : forall bq bs H W h w, (0 < bq)%Z -> (0 < bs)%Z ->
  (Z.of_nat h <= (Z.of_nat H - 1) * bq)%Z -> (Z.of_nat w <= (Z.of_nat W - 1) * bs)%Z ->
  stream_manager (block_manager bq bs H W) h w H W (in_block bq) (in_block bs) (block_inv bq bs).
Proof. exact block_stream. Qed.
Print Assumptions C48_block_manager.

(** Full statement, for a given history *)
Definition C48_full (h w : nat) (bq bs : Z) (H W : nat) (es : list (event (Np.num Z))) : Prop :=
  forall m kq ks, man_after (block_manager bq bs H W) (0, 0)%Z es = Ok (m, kq, ks) ->
  exists s0 s, cm_init (block_manager bq bs H W) no_mem no_mem 2 (0, 0)%Z h w = Ok s0 /\
    cm_run (block_manager bq bs H W) s0 es = Ok s /\
    forall i j, i < H -> j < W -> exists v q r,
      dv_get (cm_dist s) i j = Ok v /\ dv_get (cm_mq s) i j = Ok q /\ dv_get (cm_ms s) i j = Ok r /\
      rect_best (log es) (fun r c => in_block bq (i + kq) r /\ in_block bs (j + ks) c) v q r.

(** Rows are rolled the wrong way: three contexts of one row each, the first one leaves; the result of the second
    context is lost although the context is still there. *)
Theorem C48_roll_refuted : exists es, Forall (full_event 2 1) es /\ ~ C48_full 2 1 1 1 3 2 es.
Proof.
  exists [ECol 0 [[Fz 1; Fz 2]]; EShiftQ 1]. split.
  - repeat constructor. exists [Fz 1; Fz 2], []. repeat split. intros x [<-|[<-|[]]]; reflexivity.
  - intro F. destruct (F _ _ _ eq_refl) as (s0 & s & E0 & E & G). vm_compute in E0. injection E0 as <-. vm_compute in E. injection E as <-.
    destruct (G 0 0) as (v & q & r & G1 & _ & _ & HB); [lia|lia|]. vm_compute in G1. injection G1 as <-.
    destruct HB as [(_ & _ & _ & HB)|(HB & _)]; [|vm_compute in HB; discriminate].
    specialize (HB 1%Z 0%Z (Fz 2)). vm_compute in HB. assert (X : true = false); [|discriminate]. apply HB; [auto|].
    split; split; first [discriminate|reflexivity].
Qed.
Print Assumptions C48_roll_refuted.

(** A series shift after a query shift brings back results of query contexts that were dropped: here all query contexts
    were dropped and nothing was delivered for the current ones. *)
Theorem C48_resurrection_refuted : exists es, Forall (full_event 1 2) es /\ ~ C48_full 1 2 1 1 2 3 es.
Proof.
  exists [ECol 1 [[Fz 5]]; EShiftQ 2; EShiftS 1]. split.
  - repeat constructor. exists [Fz 5], []. repeat split. intros x [<-|[]]; reflexivity.
  - intro F. destruct (F _ _ _ eq_refl) as (s0 & s & E0 & E & G). vm_compute in E0. injection E0 as <-. vm_compute in E. injection E as <-.
    destruct (G 0 0) as (v & q & r & G1 & _ & _ & HB); [lia|lia|]. vm_compute in G1. injection G1 as <-.
    destruct HB as [(HB & _)|(_ & Hin & [[HR _] _] & _)]; [discriminate|]. vm_compute in Hin. destruct Hin as [[= <- <-]|[]].
    vm_compute in HR. apply HR. reflexivity.
Qed.
Print Assumptions C48_resurrection_refuted.

(** Series blocks of two columns, one column shifted at a time; query shift inside its context. *)
Example C48_case :
  (do s <- cm_init (block_manager 4 2 2 3) no_mem no_mem 2 (0, 0)%Z 2 4;
   do s <- cm_run (block_manager 4 2 2 3) s
      [ECol 0 [[Fz 9; Fz 8]]; ECol 3 [[Fz 4; Fz 7]]; EShiftS 1; ECol 3 [[Fz 6; Fz 5]]; EShiftQ 1; EShiftS 2; ECol 3 [[Fz 3; Fz 2]]];
   Ok (cm_tables s, man_after (block_manager 4 2 2 3) (0, 0)%Z
      [ECol 0 [[Fz 9; Fz 8]]; ECol 3 [[Fz 4; Fz 7]]; EShiftS 1; ECol 3 [[Fz 6; Fz 5]]; EShiftQ 1; EShiftS 2; ECol 3 [[Fz 3; Fz 2]]])) =
  Ok (([[Fz 4; PInf]; [Fz 5; PInf]; [Fz 2; PInf]], [[0; -1]; [1; -1]; [2; -1]], [[3; -1]; [4; -1]; [6; -1]])%Z, Ok ((1, 3)%Z, 0, 1)).
Proof. vm_compute. reflexivity. Qed.

(** Outside the property: a column shorter than the window, as StreamingCalculator delivers while its window fills up,
    makes the consumer fail when some query context has no delivered row. *)
Example C48_partial_column_fails :
  (do s <- cm_init (block_manager 1 1 3 2) no_mem no_mem 2 (0, 0)%Z 2 1;
   cm_run (block_manager 1 1 3 2) s [ECol 0 [[Fz 1]]]) = Err ValueError.
Proof. vm_compute. reflexivity. Qed.

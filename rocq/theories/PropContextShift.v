(** * Property C48, continued: what the contextual matrix profile does when query contexts are dropped *)
From Coq Require Import QArith.
From Verif Require Import Np NpFacts Mat SLog MDist MContext SContext PDist PContext PCmp PCmpRun Inst PropContext.
Open Scope nat_scope.

(** A table of [w] columns of [h] rows *)
Definition table {T} (h w : nat) (d : dv T) : Prop := length (dv_view d) = w /\ forall col, In col (dv_view d) -> length col = h.
Definition tables {A M} (h w : nat) (s : @cm A M) : Prop := cm_height s = h /\ table h w (cm_dist s) /\ table h w (cm_mq s) /\ table h w (cm_ms s).

Lemma shift_cell : forall T (d : dv T) h w k n x, table h w d ->
  table h w (dv_fill_last (dv_roll d k) n x) /\
  forall i j, i < h -> j < w -> dv_get (dv_fill_last (dv_roll d k) n x) i j = if i + n <? h then dv_get d ((i + (h - k mod h)) mod h) j else Ok x.
Proof.
  intros T d h w k n x [HL HC]. unfold dv_fill_last, dv_roll. cbn [dv_view dv_set_view dv_det dv_rb]. split.
  - split; cbn [dv_view dv_det]; [rewrite !map_length; exact HL|]. intros col Hc. apply in_map_iff in Hc. destruct Hc as (c1 & <- & Hc). apply in_map_iff in Hc. destruct Hc as (c0 & <- & Hc).
    rewrite length_fill_slice, length_roll_left. apply HC, Hc.
  - intros i j Hi Hj. unfold dv_get. cbn [dv_view dv_det].
    destruct (nth_error (dv_view d) j) as [col|] eqn:Ej; [|apply nth_error_None in Ej; lia].
    assert (Hlen : length col = h) by (apply HC; eapply nth_error_In; exact Ej).
    unfold getitem. rewrite !nth_error_map, Ej. cbn [option_map bind]. rewrite nth_error_fill_slice, length_roll_left, nth_roll_left, Hlen by lia.
    destruct (Nat.ltb_spec (i + n) h).
    + destruct (Nat.leb_spec (h - n) i); [lia|]. cbn [andb]. reflexivity.
    + assert (Hm : (i + (h - k mod h)) mod h < h) by (apply Nat.mod_upper_bound; lia).
      destruct (Nat.leb_spec (h - n) i); [|lia]. rewrite (proj2 (Nat.ltb_lt i h)) by lia. cbn [andb].
      destruct (nth_error col ((i + (h - k mod h)) mod h)) eqn:E; [reflexivity|]. apply nth_error_None in E. lia.
Qed.

(** C48. Exactly what [shift_query] does in every state, whatever the manager, when it drops k > 0 of the h query contexts: the last k rows are blank, and any other row i
    holds what row i - k held (counted cyclically), where row i + k holds the results of its context. *)
Theorem C48_query_shift : forall A M (MO : ManagerOps M) (s : @cm A M) h w amount man k,
  tables h w s -> man_shift_query MO (cm_man s) amount = Ok (man, k) -> 0 < k ->
  exists s', cm_shift_query MO s amount = Ok s' /\ tables h w s' /\ cm_man s' = man /\ cm_qs s' = (cm_qs s + Z.of_nat amount)%Z /\ cm_ss s' = cm_ss s /\
    forall i j, i < h -> j < w -> let from := (i + (h - k mod h)) mod h in
      dv_get (cm_dist s') i j = (if i + k <? h then dv_get (cm_dist s) from j else Ok PInf) /\
      dv_get (cm_mq s') i j = (if i + k <? h then dv_get (cm_mq s) from j else Ok (-1)%Z) /\
      dv_get (cm_ms s') i j = (if i + k <? h then dv_get (cm_ms s) from j else Ok (-1)%Z).
Proof.
  intros A M MO s h w amount man k (Hh & H1 & H2 & H3) E Hk. unfold cm_shift_query. rewrite E. cbn [bind]. rewrite (proj2 (Nat.ltb_lt 0 k) Hk), Hh.
  assert (L : forall i, i < h -> (i + Nat.min k h <? h) = (i + k <? h)) by (intros i Hi; destruct (Nat.ltb_spec (i + k) h); [apply Nat.ltb_lt|apply Nat.ltb_ge]; lia).
  destruct (@shift_cell _ _ _ _ k (Nat.min k h) PInf H1) as [T1 G1]. destruct (@shift_cell _ _ _ _ k (Nat.min k h) (-1)%Z H2) as [T2 G2]. destruct (@shift_cell _ _ _ _ k (Nat.min k h) (-1)%Z H3) as [T3 G3].
  eexists. split; [reflexivity|]. cbn [cm_height cm_dist cm_mq cm_ms cm_man cm_qs cm_ss]. split; [split; [reflexivity|split; [exact T1|split; [exact T2|exact T3]]]|].
  split; [reflexivity|]. split; [reflexivity|]. split; [reflexivity|]. intros i j Hi Hj. cbv zeta. rewrite G1, G2, G3 by assumption. rewrite L by exact Hi. repeat split.
Qed.
Print Assumptions C48_query_shift.

(** C48. So every remaining context keeps its results when all contexts are dropped or exactly half of them, ... *)
Theorem C48_right_shift : forall A M (MO : ManagerOps M) (s : @cm A M) h w amount man k,
  tables h w s -> man_shift_query MO (cm_man s) amount = Ok (man, k) -> 0 < k -> h <= k \/ 2 * k = h ->
  exists s', cm_shift_query MO s amount = Ok s' /\
    forall i j, i < h -> j < w ->
      dv_get (cm_dist s') i j = (if i + k <? h then dv_get (cm_dist s) (i + k) j else Ok PInf) /\
      dv_get (cm_mq s') i j = (if i + k <? h then dv_get (cm_mq s) (i + k) j else Ok (-1)%Z) /\
      dv_get (cm_ms s') i j = (if i + k <? h then dv_get (cm_ms s) (i + k) j else Ok (-1)%Z).
Proof.
  intros A M MO s h w amount man k HT E Hk Hw. destruct (C48_query_shift A M MO s h w amount man k HT E Hk) as (s' & E' & _ & _ & _ & _ & G). exists s'. split; [exact E'|].
  intros i j Hi Hj. destruct (G i j Hi Hj) as (G1 & G2 & G3). rewrite G1, G2, G3. destruct (Nat.ltb_spec (i + k) h); [|repeat split].
  destruct Hw as [Hw|Hw]; [lia|]. rewrite (Nat.mod_small k h) by lia. replace (i + (h - k)) with (i + k) by lia. rewrite Nat.mod_small by lia. repeat split.
Qed.
Print Assumptions C48_right_shift.

(** ... and whenever another number is dropped, the first row has the results of another context, or of a dropped one, unless they are equal to its own. *)
Theorem C48_wrong_shift : forall A M (MO : ManagerOps M) (s : @cm A M) h w amount man k,
  tables h w s -> man_shift_query MO (cm_man s) amount = Ok (man, k) -> 0 < k < h -> 2 * k <> h ->
  exists s', cm_shift_query MO s amount = Ok s' /\ h - k <> k /\ h - k < h /\ k < h /\
    forall j, j < w -> dv_get (cm_dist s') 0 j = dv_get (cm_dist s) (h - k) j.
Proof.
  intros A M MO s h w amount man k HT E Hk Hw. destruct (C48_query_shift A M MO s h w amount man k HT E ltac:(lia)) as (s' & E' & _ & _ & _ & _ & G). exists s'. split; [exact E'|].
  split; [lia|]. split; [lia|]. split; [lia|]. intros j Hj. destruct (G 0 j ltac:(lia) Hj) as (G1 & _). rewrite G1. rewrite (proj2 (Nat.ltb_lt (0 + k) h)) by lia.
  rewrite (Nat.mod_small k h) by lia. cbn [Nat.add]. rewrite Nat.mod_small by lia. reflexivity.
Qed.
Print Assumptions C48_wrong_shift.

(** Four contexts of one row each: after one is dropped, the rows are those of contexts 3, 0, 1 and a blank one; after two more, correctly those of 1 and blank rows. *)
Example C48_query_shift_case :
  (do s <- cm_init (block_manager 1 1 4 2) no_mem no_mem 2 (0, 0)%Z 3 1;
   do s <- cm_run (block_manager 1 1 4 2) s [ECol 0 [[Fz 1; Fz 2; Fz 3]]; EShiftQ 1];
   do s2 <- cm_run (block_manager 1 1 4 2) s [EShiftQ 2];
   Ok (cm_tables s, cm_tables s2)) =
  Ok (([[PInf; Fz 1; Fz 2; PInf]; [PInf; PInf; PInf; PInf]], [[-1; 0; 1; -1]; [-1; -1; -1; -1]], [[-1; 0; 0; -1]; [-1; -1; -1; -1]])%Z,
      ([[Fz 2; PInf; PInf; PInf]; [PInf; PInf; PInf; PInf]], [[1; -1; -1; -1]; [-1; -1; -1; -1]], [[0; -1; -1; -1]; [-1; -1; -1; -1]])%Z).
Proof. vm_compute. reflexivity. Qed.

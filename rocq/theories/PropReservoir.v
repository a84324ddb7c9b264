(** * Properties C39-C40: MatrixProfileLRReservoir *)
From Coq Require Import QArith.
From Verif Require Import Np NpFacts Mat Inst SLog PLog MProfile MRand SRand MReservoir SReservoir PRand PReservoir PResProb PResCol PResMix.
Open Scope nat_scope.

(** C39. Whatever the random source returns, after any diagonals each side holds the smallest delivered
    value, the number of deliveries attaining it and the row of one of them. *)
Theorem C39_diagonals : forall A (NA : NumOps A) (OL : OrdLaws A) h w (es : list (event (num A))),
  Forall is_diag es -> Forall (fits h w) es -> Forall no_ninf es ->
  safe (mrs_run (mrs_init h w) es) (fun s =>
    forall c, c < w -> exists vl il nl vr ir nr,
      nth_error (r_left s) c = Some vl /\ nth_error (r_ileft s) c = Some il /\ nth_error (r_nleft s) c = Some nl /\
      nth_error (r_right s) c = Some vr /\ nth_error (r_iright s) c = Some ir /\ nth_error (r_nright s) c = Some nr /\
      let a := Z.of_nat c in
      res_ok (sel (is_left a) a (log es)) vl il nl /\ res_ok (sel (is_right a) a (log es)) vr ir nr).
Proof. intros A NA OL. exact C39_lemma. Qed.
Print Assumptions C39_diagonals.

(** The merged profile is the smallest delivered value of the column and the merged index names a
    delivered cell attaining it. *)
Theorem C39_merged : forall A (NA : NumOps A) (OL : OrdLaws A) h w (es : list (event (num A))),
  Forall is_diag es -> Forall (fits h w) es -> Forall no_ninf es ->
  safe (rbind (mrs_run (mrs_init h w) es) (fun s => rbind (mrs_idx s) (fun l => Ret (mrs_mp s, l)))) (fun r =>
    length (fst r) = w /\ length (snd r) = w /\
    forall c, c < w -> exists v i n, nth_error (fst r) c = Some v /\ nth_error (snd r) c = Some i /\
      res_ok (sel all_rows (Z.of_nat c) (log es)) v i n).
Proof. intros A NA OL. exact C39_merged_lemma. Qed.
Print Assumptions C39_merged.

(** One NaN-free column, in any state. *)
Theorem C39_column : forall A (NA : NumOps A) (OL : OrdLaws A) w (s : @mrs A) c (vals : list (num A)) rest,
  mrs_len w s -> c < w -> vals <> [] -> no_nan vals ->
  safe (mrs_col s c (vals :: rest)) (fun s' => r_range s' = r_range s /\ mrs_len w s' /\
    (forall j, j <> c -> ent3 (r_left s') (r_ileft s') (r_nleft s') j = ent3 (r_left s) (r_ileft s) (r_nleft s) j /\
                         ent3 (r_right s') (r_iright s') (r_nright s') j = ent3 (r_right s) (r_iright s) (r_nright s) j) /\
    (exists v i n, ent3 (r_left s') (r_ileft s') (r_nleft s') c = Some (v, i, n) /\
       col_ok vals 0 (Nat.min (c + 1) (length vals)) v i n) /\
    (if c + 2 <=? length vals then exists v i n, ent3 (r_right s') (r_iright s') (r_nright s') c = Some (v, i, n) /\
       col_ok vals (c + 1) (length vals) v i n
     else ent3 (r_right s') (r_iright s') (r_nright s') c = ent3 (r_right s) (r_iright s) (r_nright s) c)).
Proof. intros A NA OL. exact mrs_col_lemma. Qed.
Print Assumptions C39_column.

Definition ties_case : list (event (num Z)) :=
  [EDiag 2 [[Fz 5; Fz 1]]; EDiag 1 [[Fz 3; Fz 5; Fz 4]]; EDiag 0 [[Fz 9; Fz 9; Fz 5; Fz 2]]; EDiag (-1) [[Fz 9; Fz 9; Fz 5]]].

(** All outcomes of a program, first branch first *)
Fixpoint outcomes {X} (t : rnd X) : list (option X) :=
  match t with
  | Ret x => [Some x]
  | Fail _ => [None]
  | Flip _ _ k => outcomes (k true) ++ outcomes (k false)
  | Pick n k => concat (map (fun i => outcomes (k i)) (seq 0 n))
  end.

Example C39_case :
  map (option_map (fun s => (r_left s, r_ileft s, r_nleft s))) (outcomes (mrs_run (mrs_init 4 4) ties_case)) =
  [Some ([Fz 9; Fz 3; Fz 5; Fz 1], [0; 0; 2; 1]%Z, [1; 1; 3; 1]%nat);
   Some ([Fz 9; Fz 3; Fz 5; Fz 1], [0; 0; 1; 1]%Z, [1; 1; 3; 1]%nat);
   Some ([Fz 9; Fz 3; Fz 5; Fz 1], [0; 0; 2; 1]%Z, [1; 1; 3; 1]%nat);
   Some ([Fz 9; Fz 3; Fz 5; Fz 1], [0; 0; 0; 1]%Z, [1; 1; 3; 1]%nat)].
Proof. vm_compute. reflexivity. Qed.

(** Any mixture of diagonals and full columns without NaN: the profile entry of column [c] is the smallest value of the cells delivered
    since column [c] itself was last delivered, and the index is the row of one of the cells with that value. *)
Theorem C39_mixed : forall A (NA : NumOps A) (OL : OrdLaws A) h w (es : list (event (num A))),
  Forall no_shift es -> Forall (fits h w) es -> Forall (full_cols h) es -> Forall cols_no_nan es -> Forall no_ninf es ->
  safe (rbind (mrs_run (mrs_init h w) es) (fun s => rbind (mrs_idx s) (fun l => Ret (mrs_mp s, l)))) (fun r =>
    length (fst r) = w /\ length (snd r) = w /\
    forall c, c < w -> exists v i n, nth_error (fst r) c = Some v /\ nth_error (snd r) c = Some i /\
      kept (sel all_rows (Z.of_nat c) (log (since c es))) v i n).
Proof. intros A NA OL h w es H1 H2 H3 H4 H5. apply mixed_merged. rewrite Forall_forall in *. intros e He. unfold good. auto 10. Qed.
Print Assumptions C39_mixed.

(** A NaN in a column makes the random pick fail: NaN-freeness is needed in C39_column. *)
Example C39_nan_column :
  outcomes (mrs_col (mrs_init 2 2) 1 [[Fz 1; NaN]]) = [].
Proof. vm_compute. reflexivity. Qed.
Theorem C39_nan_column_refuted : exists (vals : list (num Z)),
  mrs_col (mrs_init 2 2) 1 [vals] = Pick 0 (fun i => rbind (lift (getitem [] i)) (fun p1 =>
     rbind (lift (setitem [-1; -1]%Z 1 (Z.of_nat p1))) (fun i1 =>
       Ret (mkMrs [0; 1]%Z [PInf; NaN] i1 [0; 0]%nat [PInf; PInf] [-1; -1]%Z [0; 0]%nat)))).
Proof. exists [Fz 1; NaN]. reflexivity. Qed.
Print Assumptions C39_nan_column_refuted.

(** C40. Each delivered cell that attains the minimum is equally likely to be the stored one. *)
Theorem C40_left : forall A (NA : NumOps A) (OL : OrdLaws A) h w (es : list (event (num A))) c r v,
  Forall is_diag es -> Forall (fits h w) es -> Forall no_ninf es -> c < w ->
  let cells := sel (is_left (Z.of_nat c)) (Z.of_nat c) (log es) in
  isfinite v = true -> In v (map snd cells) -> (forall r x, In (r, x) cells -> fltb x v = false) ->
  (prob (mrs_run (mrs_init h w) es) (fun s => at_row r (nth_error (r_ileft s) c)) ==
    frac (count_row r v cells) (count v cells))%Q.
Proof. intros A NA OL. exact C40_left_lemma. Qed.
Print Assumptions C40_left.

Theorem C40_right : forall A (NA : NumOps A) (OL : OrdLaws A) h w (es : list (event (num A))) c r v,
  Forall is_diag es -> Forall (fits h w) es -> Forall no_ninf es -> c < w ->
  let cells := sel (is_right (Z.of_nat c)) (Z.of_nat c) (log es) in
  isfinite v = true -> In v (map snd cells) -> (forall r x, In (r, x) cells -> fltb x v = false) ->
  (prob (mrs_run (mrs_init h w) es) (fun s => at_row r (nth_error (r_iright s) c)) ==
    frac (count_row r v cells) (count v cells))%Q.
Proof. intros A NA OL. exact C40_right_lemma. Qed.
Print Assumptions C40_right.

(** Uniform over both sides together after merging. *)
Theorem C40_merged : forall A (NA : NumOps A) (OL : OrdLaws A) h w (es : list (event (num A))) c r v,
  Forall is_diag es -> Forall (fits h w) es -> Forall no_ninf es -> c < w ->
  let cells := sel all_rows (Z.of_nat c) (log es) in
  isfinite v = true -> In v (map snd cells) -> (forall r x, In (r, x) cells -> fltb x v = false) ->
  (prob (rbind (mrs_run (mrs_init h w) es) (@mrs_idx A NA)) (fun l => at_row r (nth_error l c)) ==
    frac (count_row r v cells) (count v cells))%Q.
Proof. intros A NA OL. exact C40_merged_lemma. Qed.
Print Assumptions C40_merged.

(** Any mixture of diagonals and full columns without NaN: uniform over the cells delivered since column [c] was last delivered. *)
Theorem C40_mixed : forall A (NA : NumOps A) (OL : OrdLaws A) h w (es : list (event (num A))) c r v,
  Forall no_shift es -> Forall (fits h w) es -> Forall (full_cols h) es -> Forall cols_no_nan es -> Forall no_ninf es -> c < w ->
  let cells := sel all_rows (Z.of_nat c) (log (since c es)) in
  isfinite v = true -> In v (map snd cells) -> (forall r x, In (r, x) cells -> fltb x v = false) ->
  (prob (rbind (mrs_run (mrs_init h w) es) (@mrs_idx A NA)) (fun l => at_row r (nth_error l c)) ==
    frac (count_row r v cells) (count v cells))%Q.
Proof. intros A NA OL h w es c r v H1 H2 H3 H4 H5 Hc cells. apply mixed_merged_prob; [|exact Hc]. rewrite Forall_forall in *. intros e He. unfold good. auto 10. Qed.
Print Assumptions C40_mixed.

(** Columns *)
Theorem C40_column_left : forall A (NA : NumOps A) (OL : OrdLaws A) w (s : @mrs A) c (vals : list (num A)) rest r v,
  mrs_len w s -> c < w -> vals <> [] -> no_nan vals ->
  r < c + 1 -> nth_error vals r = Some v -> (forall k x, k < c + 1 -> nth_error vals k = Some x -> fltb x v = false) ->
  (prob (mrs_col s c (vals :: rest)) (fun s' => at_row (Z.of_nat r) (nth_error (r_ileft s') c)) ==
    frac 1 (ties v (lslice vals 0 (Nat.min (c + 1) (length vals)))))%Q.
Proof. intros A NA OL. exact mrs_col_prob_left. Qed.
Print Assumptions C40_column_left.

Theorem C40_column_right : forall A (NA : NumOps A) (OL : OrdLaws A) w (s : @mrs A) c (vals : list (num A)) rest r v,
  mrs_len w s -> c < w -> no_nan vals ->
  c + 1 <= r -> nth_error vals r = Some v -> (forall k x, c + 1 <= k -> nth_error vals k = Some x -> fltb x v = false) ->
  (prob (mrs_col s c (vals :: rest)) (fun s' => at_row (Z.of_nat r) (nth_error (r_iright s') c)) ==
    frac 1 (ties v (lslice vals (c + 1) (length vals))))%Q.
Proof. intros A NA OL. exact mrs_col_prob_right. Qed.
Print Assumptions C40_column_right.

(** Column 2 has three ties on the left (rows 0, 1, 2) and one on the right (row 3). *)
Example C40_case_left : map (fun r => Qred (prob (mrs_run (mrs_init 4 4) ties_case) (fun s => at_row r (nth_error (r_ileft s) 2)))) [0; 1; 2; 3]%Z
  = [1 # 3; 1 # 3; 1 # 3; 0]%Q.
Proof. vm_compute. reflexivity. Qed.
Example C40_case_merged : map (fun r => Qred (prob (rbind (mrs_run (mrs_init 4 4) ties_case) mrs_idx) (fun l => at_row r (nth_error l 2)))) [0; 1; 2; 3; 4]%Z
  = [1 # 4; 1 # 4; 1 # 4; 1 # 4; 0]%Q.
Proof. vm_compute. reflexivity. Qed.
(** Column 1 (7, 3, 3), then the diagonals 0 and -1: the cell (2, 1) is delivered again, (0, 1) is not; the merged index of column 1 is
    row 1 or row 2, row 2 with probability 2/4 as (1, 1) is delivered again as well.  Without diagonal 0, row 2 has 2/3. *)
Definition mixed_case (more : list (event (num Z))) : list (event (num Z)) :=
  [EDiag 1 [[Fz 1; Fz 2]]; ECol 1 [[Fz 7; Fz 3; Fz 3]]; ECol 0 [[Fz 9; Fz 9; Fz 9]]; EDiag (-1) [[Fz 4; Fz 3]]] ++ more.
Example C40_case_mixed : map (fun more => map (fun r => Qred (prob (rbind (mrs_run (mrs_init 3 3) (mixed_case more)) mrs_idx) (fun l => at_row r (nth_error l 1)))) [0; 1; 2]%Z)
    [[]; [EDiag 0 [[Fz 5; Fz 3; Fz 5]]]; [ECol 1 [[Fz 8; Fz 8; Fz 9]]]] = [[0; 1 # 3; 2 # 3]; [0; 1 # 2; 1 # 2]; [1 # 2; 1 # 2; 0]]%Q.
Proof. vm_compute. reflexivity. Qed.
Example C39_case_mixed : map (option_map (fun s => mrs_mp s)) (outcomes (mrs_run (mrs_init 3 3) (mixed_case [ECol 1 [[Fz 8; Fz 8; Fz 9]]]))) = repeat (Some [Fz 4; Fz 8; Fz 2]) 8.
Proof. vm_compute. reflexivity. Qed.
Example C40_case_column : map (fun r => Qred (prob (mrs_col (mrs_init 6 6) 2 [[Fz 7; Fz 3; Fz 3; Fz 8; Fz 8; Fz 8]]) (fun s => at_row r (nth_error (r_iright s) 2)))) [2; 3; 4; 5]%Z
  = [0; 1 # 3; 1 # 3; 1 # 3]%Q.
Proof. vm_compute. reflexivity. Qed.

(** What does not fit raises: a diagonal that leaves the profile (by more than numpy's broadcasting of a single entry), a column the
    profile does not have, an empty column; and there is no shift method.  An exception ends the run. *)
Theorem C39_rejects : forall A (NA : NumOps A) w (s : @mrs A) (es : list (event (num A))), mrs_len w s ->
  (forall d vals rest, 2 <= length vals -> w < Z.to_nat d + length vals -> w <> Z.to_nat d + 1 -> mrs_run s (EDiag d (vals :: rest) :: es) = Fail ValueError) /\
  (forall c vals rest, vals <> [] -> w <= c -> mrs_run s (ECol c (vals :: rest) :: es) = Fail IndexError) /\
  (forall c rest, mrs_run s (ECol c ([] :: rest) :: es) = Fail ValueError) /\
  (forall d, mrs_run s (EDiag d [] :: es) = Fail IndexError) /\ (forall c, mrs_run s (ECol c [] :: es) = Fail IndexError) /\
  (forall n, mrs_run s (EShiftS n :: es) = Fail AttributeError /\ mrs_run s (EShiftQ n :: es) = Fail AttributeError).
Proof.
  intros A NA w s es (L1 & L2 & L3 & L4 & L5 & L6). unfold mrs_run. cbn [rfold].
  assert (U : forall dist didx mp mpi nm lo hi, length mp = w -> hi = lo + length dist -> w < hi -> dist <> [] -> @update_res_at A NA dist didx mp mpi nm lo hi = Fail ValueError).
  { intros dist didx mp mpi nm lo hi Lm -> Hw Hd. unfold update_res_at, update_res. rewrite !length_lslice, Lm.
    assert (length dist <> 0) by (destruct dist; [congruence|discriminate]).
    destruct (Nat.eqb_spec (length dist) (Nat.min (lo + length dist) w - lo)); [lia|]. reflexivity. }
  split.
  { intros d vals rest Hv Hw _. cbn [mrs_step]. unfold mrs_diag. cbn [row0 lift rbind]. assert (Hn : vals <> []) by (intros ->; cbn in Hv; lia). destruct (Z.leb_spec 0 d).
    - rewrite U by (assumption || lia). reflexivity.
    - rewrite U by (assumption || lia). reflexivity. }
  split.
  { intros c vals rest Hv Hc. cbn [mrs_step]. unfold mrs_col. cbn [row0 lift rbind]. destruct vals as [|v vals]; [congruence|]. rewrite Nat.add_1_r. cbn [firstn amin lift rbind]. unfold setitem at 1. rewrite L1.
    destruct (Nat.ltb_spec c w); [lia|]. reflexivity. }
  repeat split; intros; cbn [mrs_step]; unfold mrs_col, mrs_diag; cbn [row0 lift rbind]; rewrite ?firstn_nil; reflexivity.
Qed.
Print Assumptions C39_rejects.
Example C39_rejects_case : mrs_len 4 (mrs_init (A := Z) 4 4) /\ mrs_run (mrs_init 4 4) (EDiag 2 [[Fz 1; Fz 1; Fz 1]] :: ties_case) = Fail ValueError /\
  mrs_run (mrs_init 4 4) (EDiag 0 [[Fz 1; Fz 1; Fz 1; Fz 3]] :: ECol 4 [[Fz 1; Fz 1]] :: ties_case) = Fail IndexError.
Proof. vm_compute. repeat split. Qed.

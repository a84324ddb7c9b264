(** * PropTaint: Euclidean distances of data with NaN and infinities, without a FilterGenerator *)
From Coq Require Import QArith Reals Lra.
From Verif Require Import Np NpFacts Inst MArith MEuclid SReal SCalc SGen STaint PArith PTaint PEuclid.
Set Implicit Arguments.
Open Scope nat_scope.

Definition calls_any (mem : nat -> num R) := grun (eu_calc_column mem) (@eu_calc_diagonal R NumR) (@eu_append_series R) (@eu_append_query R).

(** C85. A distance is right, up to 1e-15 of its square, if the two subsequences have no NaN and no infinity and neither have the points
    before them on the diagonal, as far back as the calculation goes.  A column goes back to the first of the columns that were calculated one after the other, or to
    the first row.  Otherwise it is +inf if the points before the subsequences are finite, the infinities of the subsequences with which the calculation began meet only
    numbers and infinities of the opposite sign, and the points after those are not NaN and not the same infinity; and else NaN. *)
Theorem C85_columns : forall mem sf m (S : list (num R)) q, let Q := query_or S q in
  0 < m -> m <= length S -> m <= length Q -> (1 <= sf)%Q -> forall H c, calc_only m S Q H -> c + m <= length S ->
  exists g0 g g' vs, eu_prepare mem sf m S q = Ok g0 /\ calls_any mem g0 H = Ok g /\ eu_calc_column mem g c = Ok (g', vs) /\ length vs = length Q + 1 - m /\
    forall r v, nth_error vs r = Some v ->
      if clean m S Q (Nat.min r (back (rev (asked H)) c)) r c then about (sqd (map real (sub m Q r)) (map real (sub m S c))) v
      else v = inf_if (over m S Q (Nat.min r (back (rev (asked H)) c)) r c).
Proof.
  intros mem sf m S q Q Hm HS HQ Hsf H c Hc Hcol. destruct (@start_any mem sf m S q Hm HS HQ Hsf) as (g0 & E0 & I0). destruct (@run_any mem m S q Hm HS HQ H [] g0 I0 Hc) as (g & E & I). rewrite app_nil_r in I.
  destruct (@col_any mem m S Q Hm HS HQ _ g c I Hcol) as (g' & vs & Ev & (L & C) & _). exists g0, g, g', (map froot vs). split; [exact E0|]. split; [exact E|].
  split; [unfold eu_calc_column; rewrite Ev; reflexivity|]. split; [rewrite map_length; exact L|]. intros r v Hv. rewrite nth_error_map in Hv. destruct (nth_error vs r) as [v0|] eqn:E1; [|discriminate]. injection Hv as <-.
  specialize (C r v0 E1). unfold cell_is in C. destruct (clean _ _ _ _ _ _); [|rewrite C; destruct (over _ _ _ _ _ _); reflexivity]. destruct C as (a & -> & Ha). exists a. split; [reflexivity|exact Ha].
Qed.
Print Assumptions C85_columns.

(** A diagonal goes back to its first cell; a cell that is not right is +inf if all points before its subsequences are finite and those of the subsequences are not NaN and
    not the same infinity. *)
Theorem C85_diagonals : forall mem sf m (S : list (num R)) q, let Q := query_or S q in
  0 < m -> m <= length S -> m <= length Q -> (1 <= sf)%Q -> forall H d, calc_only m S Q H -> has_diag m S Q d ->
  exists g0 g vs, eu_prepare mem sf m S q = Ok g0 /\ calls_any mem g0 H = Ok g /\ eu_calc_diagonal g d = Ok (g, vs) /\
    Z.of_nat (length vs) = dlen (length Q + 1 - m) (length S + 1 - m) d /\
    forall k v, nth_error vs k = Some v -> let r := Z.to_nat (Z.max 0 (- d)) + k in let c := Z.to_nat (Z.max 0 d) + k in
      if clean m S Q k r c then v = Fin (euclid (map real (sub m Q r)) (map real (sub m S c))) else v = inf_if (clear S Q k r c && pairs apart m S Q r c).
Proof.
  intros mem sf m S q Q Hm HS HQ Hsf H d Hc Hd. destruct (@start_any mem sf m S q Hm HS HQ Hsf) as (g0 & E0 & I0). destruct (@run_any mem m S q Hm HS HQ H [] g0 I0 Hc) as (g & E & I).
  destruct (@diag_any m S Q g d Hm (ti_m I) (ti_s I) (ti_q I) Hd) as (vs & Ev & L & C). exists g0, g, vs. auto 10.
Qed.
Print Assumptions C85_diagonals.

(** Refuted: the distance of two finite subsequences is a number even if other points are NaN.  Self-join of (NaN, 0, 3, 7) with m = 1:
    on diagonal 1, the distance 3 of the points 0 and 3 is NaN; so is the distance of the points 3 and 7; so are the columns after column 0. *)
Definition tainted : list (num R) := [NaN; Fin 0; Fin 3; Fin 7]%R.
Theorem C85_diagonal_refuted : exists m (S : list (num R)) d k, forall mem sf, (1 <= sf)%Q ->
  exists g0 vs v, eu_prepare mem sf m S None = Ok g0 /\ eu_calc_diagonal g0 d = Ok (g0, vs) /\ nth_error vs k = Some v /\ (v = NaN \/ v = PInf) /\
    clean m S S 0 (Z.to_nat (Z.max 0 (- d)) + k) (Z.to_nat (Z.max 0 d) + k) = true.
Proof.
  exists 1, tainted, 1%Z, 1. intros mem sf Hsf. destruct (@C85_diagonals mem sf 1 tainted None ltac:(lia) ltac:(cbn; lia) ltac:(cbn; lia) Hsf [] 1) as (g0 & g & vs & E0 & E1 & E2 & L & C); [intros o []|exists 0, 1; cbn; lia|].
  injection E1 as ->. destruct (nth_error vs 1) as [v|] eqn:E3; [|apply nth_error_None in E3; cbn in L; lia]. exists g, vs, v. split; [exact E0|]. split; [exact E2|]. split; [exact E3|]. split; [rewrite (C 1 v E3); unfold inf_if; match goal with |- context [if ?b then _ else _] => destruct b; auto end|reflexivity].
Qed.
Print Assumptions C85_diagonal_refuted.
Theorem C85_column_refuted : exists m (S : list (num R)) H c r, forall mem sf, (1 <= sf)%Q ->
  exists g0 g g' vs v, eu_prepare mem sf m S None = Ok g0 /\ calls_any mem g0 H = Ok g /\ eu_calc_column mem g c = Ok (g', vs) /\ nth_error vs r = Some v /\ (v = NaN \/ v = PInf) /\ clean m S S 0 r c = true.
Proof.
  exists 1, tainted, [CCol 0; CCol 1; CCol 2], 3, 3. intros mem sf Hsf. destruct (@C85_columns mem sf 1 tainted None ltac:(lia) ltac:(cbn; lia) ltac:(cbn; lia) Hsf [CCol 0; CCol 1; CCol 2] 3) as (g0 & g & g' & vs & E0 & E1 & E2 & L & C).
  { intros o [<-|[<-|[<-|[]]]]; split; cbn; lia. } { cbn. lia. }
  destruct (nth_error vs 3) as [v|] eqn:E3; [|apply nth_error_None in E3; cbn in L; lia]. exists g0, g, g', vs, v. split; [exact E0|]. split; [exact E1|]. split; [exact E2|]. split; [exact E3|]. split; [rewrite (C 3 v E3); unfold inf_if; match goal with |- context [if ?b then _ else _] => destruct b; auto end|reflexivity].
Qed.
Print Assumptions C85_column_refuted.

(** The same in a run of the model on integers: column 2 asked for at once, and after the columns 0 and 1. *)
Definition ztaint (l : list (num Z)) (H : list (gcall (num Z))) (c : nat) : res (list (num Z)) :=
  do g <- eu_prepare (fun _ => Fz 99) 1 1 l None; do g <- grun (eu_calc_column (fun _ => Fz 99)) (@eu_calc_diagonal Z NumZ) (@eu_append_series Z) (@eu_append_query Z) g H; do r <- eu_calc_column (fun _ => Fz 99) g c; Ok (snd r).
Example C85_example_column : ztaint [NaN; Fz 1; Fz 3; Fz 7] [] 2 = Ok [NaN; Fz 2; Fz 0; Fz 4].
Proof. vm_compute. reflexivity. Qed.
Example C85_example_columns : ztaint [NaN; Fz 1; Fz 3; Fz 7] [CCol 0; CCol 1] 2 = Ok [NaN; NaN; NaN; NaN].
Proof. vm_compute. reflexivity. Qed.
Example C85_example_inf : ztaint [PInf; Fz 1; Fz 3; Fz 7] [CCol 1; CDiag 0] 2 = Ok [NaN; NaN; Fz 0; Fz 4].
Proof. vm_compute. reflexivity. Qed.
Example C85_example_clean : map (fun r => clean 1 tainted tainted (Nat.min r (back (rev (asked [@CCol R 0; CCol 1])) 2)) r 2) [0; 1; 2; 3] = [false; false; false; false] /\
  map (fun r => clean 1 tainted tainted (Nat.min r (back [] 2)) r 2) [0; 1; 2; 3] = [false; true; true; true].
Proof. split; reflexivity. Qed.
(** Infinities: asked for at once, the distance of (-1) and (+inf) is +inf, that of 1 and +inf NaN; after the column before, both are +inf because the difference is added. *)
Example C85_example_signs : ztaint [Fz (-1); Fz 1; Fz 2; PInf; Fz 5] [] 3 = Ok [PInf; NaN; NaN; NaN; NaN] /\ ztaint [Fz (-1); Fz 1; Fz 2; PInf; Fz 5] [CCol 2] 3 = Ok [PInf; PInf; PInf; NaN; NaN] /\
  ztaint [Fz (-1); Fz 1; Fz 2; PInf; Fz 5] [CCol 2; CCol 3] 4 = Ok [Fz 6; NaN; NaN; NaN; NaN].
Proof. repeat split; vm_compute; reflexivity. Qed.

(** * PropZnorm: properties of distancematrix/generator/znorm_euclidean.py *)
From Coq Require Import QArith Reals Lra Sorted.
From Verif Require Import Np NpFacts MZnorm SReal SCalc SGen PZdist PZnorm PZgeo.
Set Implicit Arguments.
Open Scope nat_scope.

Definition zn_calls (mem : nat -> num R) := grun (zn_calc_column mem) (@zn_calc_diagonal R NumR) (@zn_append_series R NumR) (@zn_append_query R NumR).
Definition zn_batch (mem : nat -> num R) (memb : nat -> bool) (noise : R) (sf : Q) (m : nat) (S : list R) (q : option (list R)) :=
  zn_prepare mem memb (Fin noise) sf m (fin S) (option_map (map (@Fin R)) q).

Lemma col_zdef m S Q c : 0 < m -> c + m <= length S -> col_dist (zdist 0) m S Q c = col_dist zdef m S Q c.
Proof.
  intros Hm Hc. unfold col_dist. apply map_ext_in. intros r Hr%in_seq. f_equal. apply zdist_def. unfold sub. rewrite firstn_length, skipn_length. lia.
Qed.
Lemma diag_zdef m S Q d : 0 < m -> has_diag m S Q d -> diag_dist (zdist 0) m S Q d = diag_dist zdef m S Q d.
Proof.
  intros Hm (i & j & Hi & Hj & Hd). unfold diag_dist, diag_of. apply map_ext_in. intros r Hr%in_seq. unfold cell_dist. f_equal. apply zdist_def.
  unfold dlen in Hr. unfold sub. rewrite firstn_length, skipn_length. lia.
Qed.

(** C16. Diagonals without noise elimination, after any calculations. *)
Theorem C16_diagonals : forall mem memb sf m S q, let Q := query_or S q in
  0 < m -> m <= length S -> m <= length Q -> (1 <= sf)%Q ->
  exists g0, zn_batch mem memb 0 sf m S q = Ok g0 /\
  forall H d, calc_only m S Q H -> has_diag m S Q d ->
  exists g, zn_calls mem g0 (map finc H) = Ok g /\ zn_calc_diagonal g d = Ok (g, diag_dist zdef m S Q d).
Proof.
  intros mem memb sf m S q Q0 Hm HS HQ Hsf. destruct (@zn_batch_all mem memb 0 sf m S q Hm HS HQ Hsf (Rle_refl 0)) as (g0 & E0 & A).
  exists g0. split; [exact E0|]. intros H d Hc Hd. destruct (A H Hc) as (g & Eg & [B _] & _). exists g. split; [exact Eg|].
  rewrite B by exact Hd. unfold Q0 in *. rewrite diag_zdef by assumption. reflexivity.
Qed.
Print Assumptions C16_diagonals.

(** C17. Columns without noise elimination, after any calculations in any order. *)
Theorem C17_columns : forall mem memb sf m S q, let Q := query_or S q in
  0 < m -> m <= length S -> m <= length Q -> (1 <= sf)%Q ->
  exists g0, zn_batch mem memb 0 sf m S q = Ok g0 /\
  forall H c, calc_only m S Q H -> c + m <= length S ->
  exists g g', zn_calls mem g0 (map finc H) = Ok g /\ zn_calc_column mem g c = Ok (g', col_dist zdef m S Q c).
Proof.
  intros mem memb sf m S q Q0 Hm HS HQ Hsf. destruct (@zn_batch_all mem memb 0 sf m S q Hm HS HQ Hsf (Rle_refl 0)) as (g0 & E0 & A).
  exists g0. split; [exact E0|]. intros H c Hc Hcol. destruct (A H Hc) as (g & Eg & _ & B). destruct (B c Hcol) as (g' & Ec). exists g, g'. split; [exact Eg|].
  rewrite Ec. unfold Q0 in *. rewrite col_zdef by assumption. reflexivity.
Qed.
Print Assumptions C17_columns.

(** C18. Column, diagonal and single cell agree, for every noise level; the last is also right when given the dot product. *)
Theorem C18_agree : forall mem memb noise sf m S q, let Q := query_or S q in
  0 < m -> m <= length S -> m <= length Q -> (1 <= sf)%Q -> (0 <= noise)%R ->
  exists g0, zn_batch mem memb noise sf m S q = Ok g0 /\
  forall H, calc_only m S Q H -> exists g, zn_calls mem g0 (map finc H) = Ok g /\
  forall r c, r + m <= length Q -> c + m <= length S ->
  exists g' col diag v, zn_calc_column mem g c = Ok (g', col) /\ zn_calc_diagonal g (Z.of_nat c - Z.of_nat r) = Ok (g, diag) /\
    nth_error col r = Some (Fin v) /\ nth_error diag (Nat.min r c) = Some (Fin v) /\
    zn_calc_single g r c None = Ok (Fin v) /\ zn_calc_single g r c (Some (Fin (dotp (sub m Q r) (sub m S c)))) = Ok (Fin v).
Proof.
  intros mem memb noise sf m S q Q0 Hm HS HQ Hsf Hn. destruct (@zn_batch_all mem memb noise sf m S q Hm HS HQ Hsf Hn) as (g0 & E0 & A).
  exists g0. split; [exact E0|]. intros H Hc. destruct (A H Hc) as (g & Eg & [B1 B2] & B). exists g. split; [exact Eg|]. intros r c Hr Hcol.
  destruct (B c Hcol) as (g' & Ec). exists g', (col_dist (zdist noise) m S Q0 c), (diag_dist (zdist noise) m S Q0 (Z.of_nat c - Z.of_nat r)), (zdist noise (sub m Q0 r) (sub m S c)).
  split; [exact Ec|]. split; [apply B1; exists r, c; auto|]. split; [|split; [|split; apply B2; auto]].
  - unfold col_dist. rewrite nth_error_map, nth_error_seq. destruct (Nat.ltb_spec r (length Q0 + 1 - m)); [reflexivity|lia].
  - unfold diag_dist, diag_of, dlen. rewrite nth_error_map, nth_error_seq.
    destruct (Nat.ltb_spec (Nat.min r c) (Z.to_nat (Z.min (Z.of_nat (length Q0 + 1 - m) - Z.max 0 (- (Z.of_nat c - Z.of_nat r)))
      (Z.of_nat (length S + 1 - m) - Z.max 0 (Z.of_nat c - Z.of_nat r))))); [|lia]. cbn [option_map]. f_equal. unfold cell_dist.
    do 2 f_equal; f_equal; lia.
Qed.
Print Assumptions C18_agree.

(** C19. Geometry of the distances of single cells (by C18 also of columns and diagonals). *)
Theorem C19_range : forall mem memb noise sf m S q, let Q := query_or S q in
  0 < m -> m <= length S -> m <= length Q -> (1 <= sf)%Q -> (0 <= noise)%R ->
  exists g, zn_batch mem memb noise sf m S q = Ok g /\
  forall r c, r + m <= length Q -> c + m <= length S -> exists v, zn_calc_single g r c None = Ok (Fin v) /\ (0 <= v <= 2 * sqrt (INR m))%R.
Proof.
  intros mem memb noise sf m S q Q0 Hm HS HQ Hsf Hn. destruct (@zn_batch_all mem memb noise sf m S q Hm HS HQ Hsf Hn) as (g0 & E0 & A).
  exists g0. split; [exact E0|]. intros r c Hr Hc. destruct (A []) as (g & Eg & [_ B2] & _); [intros o []|]. inversion Eg; subst g.
  exists (zdist noise (sub m Q0 r) (sub m S c)). split; [apply B2; auto|].
  assert (L : forall l i, i + m <= length l -> length (@sub R m l i) = m) by (intros; unfold sub; rewrite firstn_length, skipn_length; lia).
  pose proof (@zdist_range noise (sub m Q0 r) (sub m S c)) as Z. rewrite !L in Z by assumption. apply Z; auto.
Qed.
Print Assumptions C19_range.

Theorem C19_symmetric : forall mem memb noise sf m S Q,
  0 < m -> m <= length S -> m <= length Q -> (1 <= sf)%Q -> (0 <= noise)%R ->
  exists g g', zn_batch mem memb noise sf m S (Some Q) = Ok g /\ zn_batch mem memb noise sf m Q (Some S) = Ok g' /\
  forall r c, r + m <= length Q -> c + m <= length S -> exists v, zn_calc_single g r c None = Ok v /\ zn_calc_single g' c r None = Ok v.
Proof.
  intros mem memb noise sf m S Q0 Hm HS HQ Hsf Hn.
  destruct (@zn_batch_all mem memb noise sf m S (Some Q0) Hm HS HQ Hsf Hn) as (g0 & E0 & A).
  destruct (@zn_batch_all mem memb noise sf m Q0 (Some S) Hm HQ HS Hsf Hn) as (g1 & E1 & A').
  exists g0, g1. split; [exact E0|]. split; [exact E1|]. intros r c Hr Hc.
  destruct (A []) as (g & Eg & [_ B2] & _); [intros o []|]. inversion Eg; subst g. destruct (A' []) as (g & Eg' & [_ B2'] & _); [intros o []|]. inversion Eg'; subst g.
  eexists. split; [apply B2; auto|]. cbn [query_or] in *. rewrite zdist_sym; [apply B2'; auto|].
  unfold sub. rewrite !firstn_length, !skipn_length. lia.
Qed.
Print Assumptions C19_symmetric.

Theorem C19_self : forall mem memb noise sf m S, 0 < m -> m <= length S -> (1 <= sf)%Q -> (0 <= noise)%R ->
  exists g, zn_batch mem memb noise sf m S None = Ok g /\ forall c, c + m <= length S -> zn_calc_single g c c None = Ok (Fin 0%R).
Proof.
  intros mem memb noise sf m S Hm HS Hsf Hn. destruct (@zn_batch_all mem memb noise sf m S None Hm HS HS Hsf Hn) as (g0 & E0 & A).
  exists g0. split; [exact E0|]. intros c Hc. destruct (A []) as (g & Eg & [_ B2] & _); [intros o []|]. inversion Eg; subst g.
  cbn [query_or] in B2. rewrite B2 by auto. rewrite zdist_self. reflexivity.
Qed.
Print Assumptions C19_self.

(** If the subsequences at [r] of [Q] and [r'] of [Q'] only differ by a positive scale and a shift, their distances to any
    subsequence are the same. *)
Theorem C19_affine : forall mem memb sf m S Q Q' r r' (a b : R),
  0 < m -> m <= length S -> (1 <= sf)%Q -> r + m <= length Q -> r' + m <= length Q' ->
  (0 < a)%R -> sub m Q' r' = map (fun v => a * v + b)%R (sub m Q r) -> uneven (sub m Q r) = true -> uneven (sub m Q' r') = true ->
  exists g g', zn_batch mem memb 0 sf m S (Some Q) = Ok g /\ zn_batch mem memb 0 sf m S (Some Q') = Ok g' /\
  forall c, c + m <= length S -> exists v, zn_calc_single g r c None = Ok v /\ zn_calc_single g' r' c None = Ok v.
Proof.
  intros mem memb sf m S Q1 Q2 r r' a b Hm HS Hsf Hr Hr' Ha E U1 U2.
  destruct (@zn_batch_all mem memb 0 sf m S (Some Q1) Hm HS ltac:(cbn; lia) Hsf (Rle_refl 0)) as (g0 & E0 & A).
  destruct (@zn_batch_all mem memb 0 sf m S (Some Q2) Hm HS ltac:(cbn; lia) Hsf (Rle_refl 0)) as (g1 & E1 & A').
  exists g0, g1. split; [exact E0|]. split; [exact E1|]. intros c Hc.
  destruct (A []) as (g & Eg & [_ B2] & _); [intros o []|]. inversion Eg; subst g. destruct (A' []) as (g & Eg' & [_ B2'] & _); [intros o []|]. inversion Eg'; subst g.
  eexists. split; [apply B2; auto|]. cbn [query_or] in *. rewrite B2' by auto. f_equal. f_equal. rewrite E in *. apply zdist_affine with (a := a) (b := b); auto.
  unfold sub. rewrite firstn_length, skipn_length. lia.
Qed.
Print Assumptions C19_affine.

(** C20. Noise elimination only lowers distances, and more noise lowers them more. *)
Theorem C20_noise : forall mem memb noise noise' sf m S q, let Q := query_or S q in
  0 < m -> m <= length S -> m <= length Q -> (1 <= sf)%Q -> (0 <= noise <= noise')%R ->
  exists g g', zn_batch mem memb noise sf m S q = Ok g /\ zn_batch mem memb noise' sf m S q = Ok g' /\
  forall r c, r + m <= length Q -> c + m <= length S ->
  exists v v', zn_calc_single g r c None = Ok (Fin v) /\ zn_calc_single g' r c None = Ok (Fin v') /\ (0 <= v' <= v)%R.
Proof.
  intros mem memb noise noise' sf m S q Q0 Hm HS HQ Hsf Hn.
  destruct (@zn_batch_all mem memb noise sf m S q Hm HS HQ Hsf ltac:(lra)) as (g0 & E0 & A).
  destruct (@zn_batch_all mem memb noise' sf m S q Hm HS HQ Hsf ltac:(lra)) as (g1 & E1 & A').
  exists g0, g1. split; [exact E0|]. split; [exact E1|]. intros r c Hr Hc.
  destruct (A []) as (g & Eg & [_ B2] & _); [intros o []|]. inversion Eg; subst g. destruct (A' []) as (g & Eg' & [_ B2'] & _); [intros o []|]. inversion Eg'; subst g.
  do 2 eexists. split; [apply B2; auto|]. split; [apply B2'; auto|]. apply zdist_noise. exact Hn.
Qed.
Print Assumptions C20_noise.

(** C21. Streaming: after any appends and calculations, columns, diagonals and single cells are those of the data in the
    windows.  Missing: histories that are not [trusted], for which it is false (below). *)
Definition zn_stream (mem : nat -> num R) (memb : nat -> bool) (noise : R) (sf : Q) (m W Wq : nat) (self : bool) :=
  zn_prepare_streaming mem memb (Fin noise) sf m W (if self then None else Some Wq).

Theorem C21_streaming_partial : forall mem memb noise sf m W Wq (self : bool),
  0 < m -> m <= W -> (self = false -> m <= Wq) -> (1 <= sf)%Q -> (sf <= 2)%Q -> (0 <= noise)%R ->
  exists g0, zn_stream mem memb noise sf m W Wq self = Ok g0 /\
  forall H, in_range self m W Wq H -> trusted self W H ->
  let S := wS W H in let Q := wQ self W Wq H in
  exists g, zn_calls mem g0 (map finc H) = Ok g /\
    (forall c, has_col m S Q c -> trusted self W (H ++ [CCol c]) -> exists g', zn_calc_column mem g c = Ok (g', col_dist (zdist noise) m S Q c)) /\
    (forall d, has_diag m S Q d -> zn_calc_diagonal g d = Ok (g, diag_dist (zdist noise) m S Q d)) /\
    (forall r c, r + m <= length Q -> c + m <= length S -> zn_calc_single g r c None = Ok (Fin (zdist noise (sub m Q r) (sub m S c)))).
Proof.
  intros mem memb noise sf m W Wq self Hm HW HWq H1 H2 Hn. destruct (@zn_stream_all mem memb noise sf m W Wq self Hm HW HWq H1 H2 Hn) as (g0 & E0 & A).
  exists g0. split; [exact E0|]. intros H Hr Ht S0 Q0. destruct (A H Hr Ht) as (g & Eg & [B1 B2] & B). exists g. split; [exact Eg|].
  split; [exact B|]. split; [exact B1|]. intros. apply B2; auto.
Qed.
Print Assumptions C21_streaming_partial.

(** Evaluation on concrete real numbers *)
Lemma Sq x v : (0 <= v)%R -> x = (v * v)%R -> sqrt x = v.
Proof. intros Hv ->. apply sqrt_square. exact Hv. Qed.
Ltac run_model := cbv -[R IZR Rplus Rminus Rmult Rdiv Ropp Rinv sqrt Rltb].
Lemma Rltb_yes a b : (a < b)%R -> Rltb a b = true.
Proof. intro H. unfold Rltb. destruct (Rlt_dec a b); tauto. Qed.
Lemma Rltb_no a b : (b <= a)%R -> Rltb a b = false.
Proof. intro H. unfold Rltb. destruct (Rlt_dec a b); [lra|reflexivity]. Qed.
Ltac decide_Rltb := repeat match goal with |- context [Rltb ?a ?b] =>
  first [rewrite (Rltb_yes (a := a) (b := b)) by lra | rewrite (Rltb_no (a := a) (b := b)) by lra] end.
Ltac halves := repeat match goal with |- context [sqrt ?x] => rewrite (@Sq x (1 / 2)%R) by lra end.

Definition slip : list (gcall R) := [CSeries [0; 1; 0]; CQuery [0; 1; 0]; CCol 1; CSeries [1]]%R.
Theorem C21_streaming_refuted : exists mem memb sf m W Wq H c g0 g g' ds, 0 < m /\ m <= W /\ m <= Wq /\ (1 <= sf)%Q /\ (sf <= 2)%Q /\
  in_range false m W Wq (H ++ [CCol c]) /\
  zn_stream mem memb 0 sf m W Wq false = Ok g0 /\ zn_calls mem g0 (map finc H) = Ok g /\ zn_calc_column mem g c = Ok (g', ds) /\
  nth_error ds 1 = Some (Fin (sqrt 8)) /\ nth_error (col_dist (zdist 0) m (wS W H) (wQ false W Wq H) c) 1 = Some (Fin 0%R).
Proof.
  exists (fun _ => NaN), (fun _ => false), 2%Q, 2, 4, 3, slip, 1. do 4 eexists.
  split; [lia|]. split; [lia|]. split; [lia|]. split; [discriminate|]. split; [discriminate|].
  assert (D : forall H1 o H2, slip ++ [CCol 1] = H1 ++ o :: H2 ->
    In (H1, o) [([], CSeries [0; 1; 0]); ([CSeries [0; 1; 0]], CQuery [0; 1; 0]); ([CSeries [0; 1; 0]; CQuery [0; 1; 0]], CCol 1);
                ([CSeries [0; 1; 0]; CQuery [0; 1; 0]; CCol 1], CSeries [1]); (slip, CCol 1)]%R).
  { intros H1 o H2 E. destruct H1 as [|o1 [|o2 [|o3 [|o4 [|o5 H1]]]]]; cbn in E; inversion E; subst; cbn; auto 10. destruct H1; discriminate. }
  split.
  { intros H1 o H2 E. apply D in E. cbn [In] in E. destruct E as [E|[E|[E|[E|[E|[]]]]]]; inversion E; subst; auto; unfold has_col; cbn; lia. }
  split; [run_model; decide_Rltb; reflexivity|].
  split; [run_model; decide_Rltb; halves; decide_Rltb; reflexivity|].
  split; [run_model; decide_Rltb; reflexivity|].
  split.
  - cbn [nth_error]. do 2 f_equal. f_equal. lra.
  - unfold col_dist. rewrite nth_error_map. cbn -[IZR sqrt zdist]. rewrite zdist_self. reflexivity.
Qed.
Print Assumptions C21_streaming_refuted.

(** Examples *)
Definition ex_series : list R := [0; 2; 0; 0]%R.
Definition ex_query : list R := [0; 2; 2]%R.
Lemma std2 a b s : (0 <= s)%R -> (s = (a - b) / 2 \/ s = (b - a) / 2)%R -> std [a; b] = s.
Proof. intros Hs H. unfold std, mean, rsum. cbn [map fold_right length INR]. apply Sq; [exact Hs|]. destruct H as [-> | ->]; lra. Qed.
Lemma mean2 a b : mean [a; b] = ((a + b) / 2)%R.
Proof. unfold mean, rsum. cbn [map fold_right length INR]. lra. Qed.
Lemma uneven_up : uneven [0; 2]%R = true.
Proof. unfold uneven. rewrite (@std2 0 2 1)%R by lra. apply Rltb_yes. pose proof eps12_lt1. pose proof thr_pos. unfold thr in *. lra. Qed.
Lemma uneven_down : uneven [2; 0]%R = true.
Proof. unfold uneven. rewrite (@std2 2 0 1)%R by lra. apply Rltb_yes. pose proof eps12_lt1. pose proof thr_pos. unfold thr in *. lra. Qed.
Lemma even2 a : uneven [a; a] = false.
Proof. unfold uneven. rewrite (@std2 a a 0)%R by lra. apply Rltb_no. pose proof thr_pos. unfold thr in *. lra. Qed.
Lemma far : zdef [0; 2]%R [2; 0]%R = sqrt 8.
Proof.
  unfold zdef. rewrite uneven_up, uneven_down. cbn [andb].
  assert (E : sqd (znorm [0; 2]%R) (znorm [2; 0]%R) = 8%R).
  { unfold znorm. rewrite (@std2 0 2 1)%R, (@std2 2 0 1)%R, !mean2 by lra. unfold sqd, psum, rsum. cbn [map zip_with fold_right]. lra. }
  unfold euclid. rewrite E. rewrite Rltb_no; [reflexivity|]. pose proof eps12_lt1. unfold eps12 in *. lra.
Qed.
Example ex_calls : calc_only 2 ex_series ex_query [CCol 1; CDiag (-1); CCol 0] /\ has_diag 2 ex_series ex_query 1.
Proof.
  split; [|exists 0, 1; cbn; lia]. intros o [<-|[<-|[<-|[]]]]; [split; cbn; lia| |split; cbn; lia]. exists 1, 0. cbn. lia.
Qed.
Example C16_example mem memb sf (Hsf : (1 <= sf)%Q) : exists g0 g, zn_batch mem memb 0 sf 2 ex_series (Some ex_query) = Ok g0 /\
  zn_calls mem g0 (map finc [CCol 1; CDiag (-1); CCol 0]) = Ok g /\ zn_calc_diagonal g 1 = Ok (g, [Fin (sqrt 8); Fin 0%R]).
Proof.
  destruct ex_calls as [Hc Hd].
  destruct (@C16_diagonals mem memb sf 2 ex_series (Some ex_query)) as (g0 & E0 & A); [lia|cbn; lia|cbn; lia|exact Hsf|].
  destruct (A _ _ Hc Hd) as (g & E1 & E2). exists g0, g. rewrite E2. split; [exact E0|]. split; [exact E1|]. do 2 f_equal.
  change (diag_dist zdef 2 ex_series (query_or ex_series (Some ex_query)) 1) with [Fin (zdef [0; 2] [2; 0]); Fin (zdef [2; 2] [0; 0])]%R.
  rewrite far. unfold zdef. rewrite !even2. reflexivity.
Qed.
Example C17_example mem memb sf (Hsf : (1 <= sf)%Q) : exists g0 g g', zn_batch mem memb 0 sf 2 ex_series (Some ex_query) = Ok g0 /\
  zn_calls mem g0 (map finc [CCol 1; CDiag (-1); CCol 0]) = Ok g /\ zn_calc_column mem g 1 = Ok (g', [Fin (sqrt 8); Fin (sqrt 2)]).
Proof.
  destruct ex_calls as [Hc Hd].
  destruct (@C17_columns mem memb sf 2 ex_series (Some ex_query)) as (g0 & E0 & A); [lia|cbn; lia|cbn; lia|exact Hsf|].
  destruct (A _ 1 Hc) as (g & g' & E1 & E2); [cbn; lia|]. exists g0, g, g'. rewrite E2. split; [exact E0|]. split; [exact E1|]. do 2 f_equal.
  change (col_dist zdef 2 ex_series (query_or ex_series (Some ex_query)) 1) with [Fin (zdef [0; 2] [2; 0]); Fin (zdef [2; 2] [2; 0])]%R.
  rewrite far. unfold zdef. rewrite even2, uneven_down. reflexivity.
Qed.
(** with a noise level of 1/2 the square 8 is lowered by 2 * 3 * 1/4 *)
Example C18_example mem memb sf (Hsf : (1 <= sf)%Q) : exists g0, zn_batch mem memb (1 / 2) sf 2 ex_series (Some ex_query) = Ok g0 /\
  exists g' col, zn_calc_column mem g0 1 = Ok (g', col) /\ nth_error col 0 = Some (Fin (sqrt (13 / 2))) /\ zn_calc_single g0 0 1 None = Ok (Fin (sqrt (13 / 2))).
Proof.
  destruct (@zn_batch_all mem memb (1 / 2)%R sf 2 ex_series (Some ex_query)) as (g0 & E0 & A); [lia|cbn; lia|cbn; lia|exact Hsf|lra|].
  exists g0. split; [exact E0|]. destruct (A []) as (g & Eg & [_ B2] & B); [intros o []|]. inversion Eg; subst g.
  destruct (B 1) as (g' & Ec); [cbn; lia|]. exists g'. eexists. split; [exact Ec|].
  assert (E : zdist (1 / 2) [0; 2]%R [2; 0]%R = sqrt (13 / 2)).
  { unfold zdist. assert (Z : zsq (1 / 2) [0; 2]%R [2; 0]%R = (13 / 2)%R).
    { unfold zsq. rewrite uneven_up, uneven_down. cbn [orb length INR]. rewrite (@std2 0 2 1)%R, (@std2 2 0 1)%R by lra. rewrite Rmax_left by lra.
      assert (E8 : sqd (znorm [0; 2]%R) (znorm [2; 0]%R) = 8%R).
      { unfold znorm. rewrite (@std2 0 2 1)%R, (@std2 2 0 1)%R, !mean2 by lra. unfold sqd, psum, rsum. cbn [map zip_with fold_right]. lra. }
      rewrite E8. lra. }
    rewrite Z. rewrite Rltb_no; [reflexivity|]. pose proof eps12_lt1. unfold eps12 in *. lra. }
  split.
  - change (nth_error (col_dist (zdist (1 / 2)) 2 ex_series (query_or ex_series (Some ex_query)) 1) 0) with (Some (Fin (zdist (1 / 2) [0; 2] [2; 0])%R)). rewrite E. reflexivity.
  - rewrite B2 by (cbn; auto; lia). rewrite <- E. reflexivity.
Qed.
Example C19_affine_example : sub 2 [3; 9]%R 0 = map (fun v => 3 * v + 3)%R (sub 2 ex_query 0) /\ uneven (sub 2 ex_query 0) = true /\ uneven (sub 2 [3; 9]%R 0) = true.
Proof.
  split; [|split].
  - cbn. f_equal; [lra|]. f_equal. lra.
  - exact uneven_up.
  - cbn. unfold uneven. rewrite (@std2 3 9 3)%R by lra. apply Rltb_yes. pose proof uneven_up as U. unfold uneven in U. apply PArith.Rltb_true in U. rewrite (@std2 0 2 1)%R in U by lra. lra.
Qed.

(** A trusted history: the window slides, columns are asked for in any order *)
Definition slide : list (gcall R) := [CSeries [7; 0; 2; 0]; CQuery [0; 2; 2]; CCol 2; CCol 0; CSeries [0]; CDiag 0]%R.
Example C21_example mem memb : exists g0 g g', zn_stream mem memb 0 2 2 4 3 false = Ok g0 /\ zn_calls mem g0 (map finc slide) = Ok g /\
  zn_calc_column mem g 1 = Ok (g', [Fin (sqrt 8); Fin (sqrt 2)]%R).
Proof.
  assert (D : forall H1 o H2, slide ++ [CCol 1] = H1 ++ o :: H2 ->
    In (H1, o) [([], CSeries [7; 0; 2; 0]); ([CSeries [7; 0; 2; 0]], CQuery [0; 2; 2]); ([CSeries [7; 0; 2; 0]; CQuery [0; 2; 2]], CCol 2);
                ([CSeries [7; 0; 2; 0]; CQuery [0; 2; 2]; CCol 2], CCol 0); ([CSeries [7; 0; 2; 0]; CQuery [0; 2; 2]; CCol 2; CCol 0], CSeries [0]);
                ([CSeries [7; 0; 2; 0]; CQuery [0; 2; 2]; CCol 2; CCol 0; CSeries [0]], CDiag 0); (slide, CCol 1)]%R).
  { intros H1 o H2 E. destruct H1 as [|o1 [|o2 [|o3 [|o4 [|o5 [|o6 [|o7 H1]]]]]]]; cbn in E; inversion E; subst; cbn; auto 10. destruct H1; discriminate. }
  assert (R1 : in_range false 2 4 3 (slide ++ [CCol 1])).
  { intros H1 o H2 E. apply D in E. cbn [In] in E. destruct E as [E|[E|[E|[E|[E|[E|[E|[]]]]]]]]; inversion E; subst; auto; unfold has_col; try (cbn; lia).
    exists 0, 0. cbn. lia. }
  assert (T1 : trusted false 4 (slide ++ [CCol 1])).
  { right. left. intros H1 xs H2 E. apply D in E. cbn [In] in E. destruct E as [E|[E|[E|[E|[E|[E|[E|[]]]]]]]]; inversion E; subst; auto. }
  destruct (@C21_streaming_partial mem memb 0 2%Q 2 4 3 false) as (g0 & E0 & A); [lia|lia|lia|discriminate|discriminate|lra|].
  destruct (A slide) as (g & Eg & B & _).
  - intros H1 o H2 E. apply (R1 H1 o (H2 ++ [CCol 1])). rewrite E, <- app_assoc. reflexivity.
  - right. left. intros H1 xs H2 E. destruct T1 as [T|[T|T]]; [discriminate| |cbn in T; inversion T as [|? ? _ F]; subst; inversion F; lia].
    apply (T H1 xs (H2 ++ [CCol 1])). rewrite E, <- app_assoc. reflexivity.
  - destruct (B 1) as (g' & Ec); [split; cbn; lia|exact T1|]. exists g0, g, g'. rewrite Ec. split; [exact E0|]. split; [exact Eg|]. do 2 f_equal.
    change (col_dist (zdist 0) 2 (wS 4 slide) (wQ false 4 3 slide) 1) with [Fin (zdist 0 [0; 2] [2; 0]); Fin (zdist 0 [2; 2] [2; 0])]%R.
    rewrite !zdist_def by (cbn; lia). rewrite far. unfold zdef. rewrite even2, uneven_down. reflexivity.
Qed.

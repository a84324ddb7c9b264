(** * PropStale: what the streaming generators return after every history of calls (generator/euclidean.py 72-141,
    generator/znorm_euclidean.py 152-340) *)
From Coq Require Import QArith Reals Lra Bool Sorted.
From Verif Require Import Np NpFacts MEuclid MZnorm SReal SCalc SGen SStale PArith PCache PEuclid PZnorm PStale PStaleRun.
From Verif Require PropEuclid PropZnorm.
Import PropEuclid PropZnorm.
Set Implicit Arguments.
Open Scope nat_scope.

(** C101. After any calls that make sense, a column is wrong only if it is derived from a kept column that is not the one
    before it. *)
Theorem C101_columns : forall mem sf m W Wq (self : bool), 0 < m -> m <= W -> (self = false -> 0 < Wq) -> (1 <= sf)%Q -> (sf <= 2)%Q ->
  forall H c, in_range self m W Wq (H ++ [CCol c]) -> ~ stale (kept_after self W H) c ->
  exists g0 g g' vs, eu_stream mem sf m W Wq self = Ok g0 /\ eu_calls mem g0 (map finc H) = Ok g /\ eu_calc_column mem g c = Ok (g', map root vs) /\
    length vs = length (wQ self W Wq H) + 1 - m /\
    forall r, r + m <= length (wQ self W Wq H) -> (0 <= sqd (sub m (wQ self W Wq H) r) (sub m (wS W H) c) - nth r vs 0 < / 10 ^ 15)%R.
Proof.
  intros mem sf m W Wq self Hm HW HWq H1 H2 H c Hr Hs.
  destruct (@eu_any mem m W Wq self Hm E1 okp1 okE1 (fun _ _ H => H) sf H H1 H2 HW HWq) as (g0 & g & E0 & Eg & Ig).
  { intros Ha o Hb Eo. apply (Hr Ha o (Hb ++ [CCol c])). rewrite Eo, <- app_assoc. reflexivity. }
  { intros. apply okall_true. }
  destruct (@EK_col mem m W Wq self Hm E1 okp1 okE1 (fun _ _ H => H) _ _ _ g 0 c Ig (Hr H (CCol c) [] eq_refl) (@okall_true _ _ _)) as (g' & vs & Ec & (L & N & _) & _).
  exists g0, g, g', vs. split; [exact E0|]. split; [exact Eg|]. split; [exact Ec|]. exact (N Hs).
Qed.
Print Assumptions C101_columns.

Theorem C101_columns_exact : forall mem sf m W Wq (self : bool), 0 < m -> m <= W -> (self = false -> 0 < Wq) -> (1 <= sf)%Q -> (sf <= 2)%Q ->
  forall H c, in_range self m W Wq (H ++ [CCol c]) -> ~ stale (kept_after self W H) c ->
  (forall H1 c' H2, H ++ [CCol c] = H1 ++ CCol c' :: H2 -> separated m (wS W H1) (wQ self W Wq H1)) ->
  exists g0 g g', eu_stream mem sf m W Wq self = Ok g0 /\ eu_calls mem g0 (map finc H) = Ok g /\
    eu_calc_column mem g c = Ok (g', col_dist euclid m (wS W H) (wQ self W Wq H) c).
Proof.
  intros mem sf m W Wq self Hm HW HWq H1 H2 H c Hr Hs Hp.
  destruct (@eu_any mem m W Wq self Hm PEuclid.E0 okp0 okE0 okp0_sym sf H H1 H2 HW HWq) as (g0 & g & E0 & Eg & Ig).
  { intros Ha o Hb Eo. apply (Hr Ha o (Hb ++ [CCol c])). rewrite Eo, <- app_assoc. reflexivity. }
  { intros Ha c' Hb Eo. apply okall_separated. apply (Hp Ha c' (Hb ++ [CCol c])). rewrite Eo, <- app_assoc. reflexivity. }
  destruct (@EK_col mem m W Wq self Hm PEuclid.E0 okp0 okE0 okp0_sym _ _ _ g 0 c Ig (Hr H (CCol c) [] eq_refl)) as (g' & vs & Ec & (L & N & _) & _).
  { apply okall_separated. exact (Hp H c [] eq_refl). }
  exists g0, g, g'. split; [exact E0|]. split; [exact Eg|]. rewrite Ec. do 2 f_equal.
  apply (@near_exact PEuclid.E0 m (wS W H) (wQ self W Wq H) c vs (fun e H => H) (N Hs)).
Qed.
Print Assumptions C101_columns_exact.

(** A derived column: row 0 is right, row r + 1 is off by the difference of the squared distances in row r of the kept column
    and of the column it is taken for. *)
Theorem C101_derived : forall mem sf m W Wq (self : bool), 0 < m -> m <= W -> (self = false -> 0 < Wq) -> (1 <= sf)%Q -> (sf <= 2)%Q ->
  forall H c q, in_range self m W Wq (H ++ [CCol c]) -> 0 < c -> kept_after self W H = Kept (Z.of_nat c - 1) (Some q) ->
  let S := wS W H in let Q := wQ self W Wq H in let D (r k : nat) := sqd (sub m Q r) (sub m S k) in
  exists g0 g g' vs, eu_stream mem sf m W Wq self = Ok g0 /\ eu_calls mem g0 (map finc H) = Ok g /\ eu_calc_column mem g c = Ok (g', map root vs) /\
    length vs = length Q + 1 - m /\ (0 <= q)%Z /\ Z.to_nat q + m <= length S /\ (0 <= D 0%nat c - nth 0 vs 0 < / 10 ^ 15)%R /\
    forall r, r + 1 + m <= length Q -> (0 <= D (r + 1)%nat c + (D r (Z.to_nat q) - D r (c - 1)%nat) - nth (r + 1) vs 0 < / 10 ^ 15)%R.
Proof.
  intros mem sf m W Wq self Hm HW HWq H1 H2 H c q Hr Hc Hk S Q D.
  destruct (@eu_any mem m W Wq self Hm E1 okp1 okE1 (fun _ _ H => H) sf H H1 H2 HW HWq) as (g0 & g & E0 & Eg & Ig).
  { intros Ha o Hb Eo. apply (Hr Ha o (Hb ++ [CCol c])). rewrite Eo, <- app_assoc. reflexivity. }
  { intros. apply okall_true. }
  destruct (@EK_col mem m W Wq self Hm E1 okp1 okE1 (fun _ _ H => H) _ _ _ g 0 c Ig (Hr H (CCol c) [] eq_refl) (@okall_true _ _ _)) as (g' & vs & Ec & (L & _ & N) & _).
  exists g0, g, g', vs. split; [exact E0|]. split; [exact Eg|]. split; [exact Ec|]. split; [exact L|]. exact (N q Hc Hk).
Qed.
Print Assumptions C101_derived.

Lemma root_off v e : (0 <= v)%R -> root (v + e) = Fin (sqrt v) <-> e = 0%R.
Proof.
  intro Hv. unfold root. split.
  - destruct (Rltb_spec (v + e) 0%R) as [H|H]; [discriminate|]. intro Eq. injection Eq as Eq. apply sqrt_inj in Eq; lra.
  - intros ->. rewrite Rplus_0_r. destruct (Rltb_spec v 0%R); [lra|reflexivity].
Qed.

(** ... so that it is right exactly if these two columns agree in all rows but the last. *)
Theorem C101_iff : forall mem sf m W Wq (self : bool), 0 < m -> m <= W -> (self = false -> 0 < Wq) -> (1 <= sf)%Q -> (sf <= 2)%Q ->
  forall H c q, in_range self m W Wq (H ++ [CCol c]) -> 0 < c -> kept_after self W H = Kept (Z.of_nat c - 1) (Some q) ->
  (forall H1 c' H2, H ++ [CCol c] = H1 ++ CCol c' :: H2 -> separated m (wS W H1) (wQ self W Wq H1)) ->
  let S := wS W H in let Q := wQ self W Wq H in let D (r k : nat) := sqd (sub m Q r) (sub m S k) in
  exists g0 g g' ds, eu_stream mem sf m W Wq self = Ok g0 /\ eu_calls mem g0 (map finc H) = Ok g /\ eu_calc_column mem g c = Ok (g', ds) /\
    (ds = col_dist euclid m S Q c <-> forall r, r + 1 + m <= length Q -> D r (Z.to_nat q) = D r (c - 1)%nat).
Proof.
  intros mem sf m W Wq self Hm HW HWq H1 H2 H c q Hr Hc Hk Hp S Q D.
  destruct (@eu_any mem m W Wq self Hm PEuclid.E0 okp0 okE0 okp0_sym sf H H1 H2 HW HWq) as (g0 & g & E0 & Eg & Ig).
  { intros Ha o Hb Eo. apply (Hr Ha o (Hb ++ [CCol c])). rewrite Eo, <- app_assoc. reflexivity. }
  { intros Ha c' Hb Eo. apply okall_separated. apply (Hp Ha c' (Hb ++ [CCol c])). rewrite Eo, <- app_assoc. reflexivity. }
  destruct (@EK_col mem m W Wq self Hm PEuclid.E0 okp0 okE0 okp0_sym _ _ _ g 0 c Ig (Hr H (CCol c) [] eq_refl)) as (g' & vs & Ec & (L & _ & N) & _).
  { apply okall_separated. exact (Hp H c [] eq_refl). }
  exists g0, g, g', (map root vs). split; [exact E0|]. split; [exact Eg|]. split; [exact Ec|].
  destruct (N q Hc Hk) as (_ & _ & N0 & N1). unfold PEuclid.E0 in N0, N1. fold S Q in L, N0, N1.
  change (psum sqdiff) with sqd in N0, N1. destruct (Hr H (CCol c) [] eq_refl) as [_ HQ]. fold Q in HQ.
  assert (V : forall r, r + 1 + m <= length Q -> nth_error (map root vs) (r + 1) = Some (root (D (r + 1)%nat c + (D r (Z.to_nat q) - D r (c - 1)%nat))%R)).
  { intros r Hi. rewrite nth_error_map, (nth_error_nth' vs 0%R) by lia. cbn [option_map]. f_equal. f_equal. specialize (N1 r Hi). unfold D. lra. }
  assert (V' : forall r, r + m <= length Q -> nth_error (col_dist euclid m S Q c) r = Some (Fin (sqrt (D r c)))).
  { intros r Hi. unfold col_dist. rewrite nth_error_map, nth_error_seq. destruct (Nat.ltb_spec r (length Q + 1 - m)); [|lia]. reflexivity. }
  split.
  - intros Eq r Hi. assert (A : root (D (r + 1)%nat c + (D r (Z.to_nat q) - D r (c - 1)%nat))%R = Fin (sqrt (D (r + 1)%nat c))).
    { pose proof (V r Hi) as V1. rewrite Eq, V' in V1 by lia. congruence. }
    apply root_off in A; [lra|apply sqd_nonneg].
  - intro A. apply nth_error_ext. intro i. destruct (Nat.lt_ge_cases i (length Q + 1 - m)) as [Hi|Hi].
    + rewrite V' by lia. destruct i as [|r].
      * rewrite nth_error_map, (nth_error_nth' vs 0%R) by lia. cbn [option_map]. f_equal. replace (nth 0 vs 0%R) with (D 0%nat c + 0)%R by (unfold D; lra).
        apply root_off; [apply sqd_nonneg|reflexivity].
      * replace (Datatypes.S r) with (r + 1) by lia. rewrite V by lia. f_equal. apply root_off; [apply sqd_nonneg|]. rewrite A by lia. lra.
    + rewrite (proj2 (nth_error_None _ i)) by (rewrite map_length; lia). symmetry. apply nth_error_None. unfold col_dist. rewrite map_length, seq_length. lia.
Qed.
Print Assumptions C101_iff.

(** Diagonals do not use what is kept. *)
Theorem C101_diagonals : forall mem sf m W Wq (self : bool), 0 < m -> m <= W -> (self = false -> 0 < Wq) -> (1 <= sf)%Q -> (sf <= 2)%Q ->
  forall H d, in_range self m W Wq (H ++ [CDiag d]) ->
  exists g0 g, eu_stream mem sf m W Wq self = Ok g0 /\ eu_calls mem g0 (map finc H) = Ok g /\
    eu_calc_diagonal g d = Ok (g, diag_dist euclid m (wS W H) (wQ self W Wq H) d).
Proof.
  intros mem sf m W Wq self Hm HW HWq H1 H2 H d Hr.
  destruct (@eu_any mem m W Wq self Hm E1 okp1 okE1 (fun _ _ H => H) sf H H1 H2 HW HWq) as (g0 & g & E0 & Eg & Ig).
  { intros Ha o Hb Eo. apply (Hr Ha o (Hb ++ [CDiag d])). rewrite Eo, <- app_assoc. reflexivity. }
  { intros. apply okall_true. }
  exists g0, g. split; [exact E0|]. split; [exact Eg|]. exact (@EK_diag mem m W Wq self Hm E1 _ _ _ g d Ig (Hr H (CDiag d) [] eq_refl)).
Qed.
Print Assumptions C101_diagonals.

(** The z-normalised generator *)
Theorem C101_znorm : forall mem memb noise sf m W Wq (self : bool),
  0 < m -> m <= W -> (self = false -> m <= Wq) -> (1 <= sf)%Q -> (sf <= 2)%Q -> (0 <= noise)%R ->
  forall H, in_range self m W Wq H ->
  let S := wS W H in let Q := wQ self W Wq H in let k := kept_after self W H in
  exists g0 g, zn_stream mem memb noise sf m W Wq self = Ok g0 /\ zn_calls mem g0 (map finc H) = Ok g /\
    (forall c, has_col m S Q c -> ~ stale k c -> exists g', zn_calc_column mem g c = Ok (g', col_dist (zdist noise) m S Q c)) /\
    (forall c q, has_col m S Q c -> 0 < c -> k = Kept (Z.of_nat c - 1) (Some q) -> (0 <= q)%Z /\ Z.to_nat q + m <= length S /\
       exists g' ds, zn_calc_column mem g c = Ok (g', ds) /\ length ds = length Q + 1 - m /\ nth_error ds 0 = Some (Fin (zdist noise (sub m Q 0) (sub m S c))) /\
         forall r, r + 1 + m <= length Q -> nth_error ds (r + 1) = Some (Fin
           (zdist_off noise (dotp (sub m Q r) (sub m S (Z.to_nat q)) - dotp (sub m Q r) (sub m S (c - 1))) (sub m Q (r + 1)) (sub m S c)))) /\
    (forall d, has_diag m S Q d -> zn_calc_diagonal g d = Ok (g, diag_dist (zdist noise) m S Q d)) /\
    (forall r c, r + m <= length Q -> c + m <= length S -> zn_calc_single g r c None = Ok (Fin (zdist noise (sub m Q r) (sub m S c)))).
Proof.
  intros mem memb noise sf m W Wq self Hm HW HWq H1 H2 Hn H Hr S Q k.
  destruct (@zn_any mem memb noise m W Wq self Hm HWq sf H Hn H1 H2 HW Hr) as (g0 & g & E0 & Eg & Ig). fold S Q k in Ig.
  assert (Z0 : forall x y, zdist_off noise 0 x y = zdist noise x y).
  { intros x y. unfold zdist_off, zdist. replace (zsq noise x y - _)%R with (zsq noise x y); [reflexivity|].
    destruct (uneven x && uneven y); unfold Rdiv; rewrite ?Rmult_0_r, ?Rmult_0_l; lra. }
  exists g0, g. split; [exact E0|]. split; [exact Eg|]. split; [|split; [|split]].
  - intros c Hc Hs. destruct (ZK_col mem memb Hm HWq 0 Ig Hc) as (g' & vs & Ec & (L & N & _) & _). destruct (N Hs) as [_ N0].
    exists g'. rewrite Ec. do 2 f_equal. unfold zcol, col_dist. apply map_ext_in. intros r Hi%in_seq. f_equal.
    destruct Hc as [_ HQ]. specialize (N0 r ltac:(lia)). unfold EZ in N0. rewrite <- Z0. f_equal. unfold dotp. lra.
  - intros c q Hc Hc0 Hk. destruct (ZK_col mem memb Hm HWq 0 Ig Hc) as (g' & vs & Ec & (L & _ & N) & _). destruct (N q Hc0 Hk) as (N1 & N2 & N3 & N4).
    split; [exact N1|]. split; [exact N2|]. exists g'. eexists. split; [exact Ec|]. unfold zcol. split; [rewrite map_length, seq_length; reflexivity|].
    destruct Hc as [_ HQ]. unfold EZ in *. split.
    + rewrite nth_error_map, nth_error_seq. destruct (Nat.ltb_spec 0 (length Q + 1 - m)); [|lia]. cbn [option_map Nat.add]. do 2 f_equal.
      rewrite <- Z0. f_equal. unfold dotp. lra.
    + intros r Hi. rewrite nth_error_map, nth_error_seq. destruct (Nat.ltb_spec (r + 1) (length Q + 1 - m)); [|lia]. cbn [option_map Nat.add]. do 2 f_equal.
      f_equal. specialize (N4 r Hi). unfold dotp. lra.
  - intros d Hd. exact (ZK_diag mem memb Hm HWq Ig Hd).
  - intros r c Hr0 Hc. exact (@ZK_single mem memb noise m W Wq self Hm HWq _ _ _ g r c None Ig Hr0 Hc (or_introl eq_refl)).
Qed.
Print Assumptions C101_znorm.

(** The sufficient condition of C14 and C21 *)
Theorem C101_trusted : forall X self W (H : list (gcall X)) c, trusted self W (H ++ [CCol c]) -> ~ stale (kept_after self W H) c.
Proof. intros. apply trusted_fresh. assumption. Qed.
Print Assumptions C101_trusted.

(** Examples: a window of 3 points with 2 points in it.  One more point leaves no room, and the kept column 1 is labelled 0
    although nothing left the window.  Column 1 is then derived from itself ... *)
Example C101_label : kept_after false 3 PropEuclid.slip = Kept 0 (Some 1%Z) /\ stale (kept_after false 3 PropEuclid.slip) 1 /\
  ~ stale (kept_after false 3 PropEuclid.slip) 2.
Proof.
  assert (E : kept_after false 3 PropEuclid.slip = Kept 0 (Some 1%Z)) by reflexivity. rewrite E. split; [reflexivity|]. split.
  - split; [lia|]. eexists. split; [reflexivity|]. discriminate.
  - intros (_ & p & Ep & _). discriminate.
Qed.
(** ... while a history that is not trusted can be harmless: after the same slip another column is asked for *)
Definition healed : list (gcall R) := PropEuclid.slip ++ [CCol 2; CCol 1].
Example C101_healed : ~ trusted false 3 (healed ++ [CCol 2]) /\ ~ stale (kept_after false 3 healed) 2 /\
  kept_after false 3 (PropEuclid.slip ++ [CCol 1]) = Kept 1 None.
Proof.
  split; [|split; [|reflexivity]].
  - intros [T|[T|T]]; [discriminate| |].
    + specialize (T [CSeries [0; 1]; CQuery [0; 1]; CCol 1]%R [5]%R [CCol 2; CCol 1; CCol 2] eq_refl). cbn in T. destruct T as [T|[T|T]]; [discriminate|lia|lia].
    + cbn in T. apply StronglySorted_inv in T as [_ T]. rewrite Forall_forall in T. specialize (T 1 ltac:(right; left; reflexivity)). lia.
  - change (kept_after false 3 healed) with (Kept 1 (Some 1%Z)). intros (_ & p & Ep & Np). injection Ep as <-. apply Np. reflexivity.
Qed.
(** The column of C14_streaming_refuted: the squares in row 0 of the columns 1 and 0 are 1 and 0 *)
Example C101_wrong mem : exists g0 g g' ds, eu_stream mem 2 1 3 2 false = Ok g0 /\ eu_calls mem g0 (map finc PropEuclid.slip) = Ok g /\
  eu_calc_column mem g 1 = Ok (g', ds) /\ ds <> col_dist euclid 1 [0; 1; 5]%R [0; 1]%R 1.
Proof.
  assert (D : forall H1 o H2, PropEuclid.slip ++ [CCol 1] = H1 ++ o :: H2 ->
    In (H1, o) [([], CSeries [0; 1]); ([CSeries [0; 1]], CQuery [0; 1]); ([CSeries [0; 1]; CQuery [0; 1]], CCol 1);
                ([CSeries [0; 1]; CQuery [0; 1]; CCol 1], CSeries [5]); (PropEuclid.slip, CCol 1)]%R).
  { intros H1 o H2 E. destruct H1 as [|o1 [|o2 [|o3 [|o4 [|o5 H1]]]]]; cbn in E; inversion E; subst; cbn; auto 10. destruct H1; discriminate. }
  destruct (@C101_iff mem 2%Q 1 3 2 false) with (H := PropEuclid.slip) (c := 1) (q := 1%Z) as (g0 & g & g' & ds & E0 & E1 & E2 & I);
    [lia|lia|lia|discriminate|discriminate| |lia|reflexivity| |].
  - intros H1 o H2 E. apply D in E. cbn [In] in E. destruct E as [E|[E|[E|[E|[E|[]]]]]]; inversion E; subst; auto; unfold has_col; cbn; lia.
  - intros H1 c' H2 E. apply D in E. cbn [In] in E. pose proof eps_small. intros i j Hi Hj.
    destruct E as [E|[E|[E|[E|[E|[]]]]]]; inversion E; subst; cbn in Hi, Hj;
      (destruct i as [|[|i]]; [| |lia]); (destruct j as [|[|[|j]]]; [| | |lia]); unfold sqd, psum, rsum; cbn -[pow Rlt]; try lia; lra.
  - exists g0, g, g', ds. split; [exact E0|]. split; [exact E1|]. split; [exact E2|]. intro Eq.
    assert (A := proj1 I Eq 0 ltac:(cbn; lia)). revert A. change (Z.to_nat 1) with 1. unfold sqd, psum, rsum. cbn -[IZR]. intro A. lra.
Qed.

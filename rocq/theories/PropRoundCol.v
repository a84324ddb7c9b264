(** * Property C100: the error of the columns of the Euclidean generator *)
From Coq Require Import QArith Reals Lia Lra Floats.SpecFloat.
From Flocq Require Import Core.
From Verif Require Import Np NpFacts MUtil MArith MCache MEuclid SReal SCalc SGen SRound SRoundCol InstF PArith PGenRun PTotal PRound PRoundGen PRoundEu PRoundCol PropRound PropTotal PSim PFloat PBinary PBinaryZn PBinaryEu PropBinary.
Set Implicit Arguments.
Open Scope nat_scope.

(** [x] is [exact], up to the root of [err]; or it is NaN and [exact] is below that root. *)
Definition entry_error (u t : R) (x : num R) (exact err : R) : Prop :=
  (exists a, x = Fin a /\ (Rabs (a - exact) <= (1 + u) * sqrt err + u * (exact + t))%R) \/ (x = NaN /\ (exact <= sqrt err)%R).

(** C100. Any columns and diagonals of fixed data, in any order: no exception, and the error of every entry of a column is bounded by the
    roundings of the data on its diagonal. *)
Theorem C100_columns : forall rnd u t mem sf m S q g0 H c, sane rnd -> (0 <= u)%R -> (0 <= t <= 1)%R -> accurate u t rnd ->
  let Q := query_or S q in 0 < m -> has_col m S Q c -> eu_prepare mem sf m (fin S) (option_map (map (@Fin R)) q) = Ok g0 -> calc_only m S Q H ->
  exists g g' ds, eu_rnd rnd mem g0 (map finc H) = Ok g /\ @eu_calc_column R (NumRnd rnd) mem g c = Ok (g', ds) /\ length ds = length Q + 1 - m /\
    forall i x, nth_error ds i = Some x -> entry_error u t x (euclid (sub m Q i) (sub m S c)) (sq_error u t m Q S i c).
Proof.
  intros rnd u t mem sf m S q g0 H c HS Hu Ht Ha Q Hm [Hc HQ] E0 HC. pose proof (@batch_start rnd mem sf m S q g0 u t HS Hm ltac:(lia) ltac:(fold Q; lia) E0) as I0.
  destruct (@batch_run rnd u t HS Hu Ht Ha m S Q Hm mem H g0 I0 HC) as (g & E & I). destruct (@batch_col rnd u t HS Hu Ht Ha m S Q Hm mem g c I Hc HQ) as (g' & vs & Ec & [L G] & _).
  exists g, g', (map (@froot R (NumRnd rnd)) (fin vs)). split; [exact E|]. split; [unfold eu_calc_column; unfold NRb in Ec; rewrite Ec; reflexivity|]. split; [rewrite !map_length; exact L|].
  intros i x Ex. rewrite !nth_error_map in Ex. destruct (nth_error vs i) as [v|] eqn:Ev; [|discriminate]. injection Ex as <-. assert (Hi : i < length vs) by (apply nth_error_Some; congruence).
  specialize (G i ltac:(lia)). rewrite (nth_error_nth _ _ _ Ev) in G. destruct (@good_root rnd u t Hu Ha m S Q i c v G) as [(a & Ea & B)|[Ea B]]; [left; exists a; split; [exact Ea|exact B]|right; split; [exact Ea|exact B]].
Qed.
Print Assumptions C100_columns.

(** A column that does not follow the last one, after any calls, also streaming: a number, whose error only depends on the two subsequences. *)
Theorem C100_full : forall rnd u t mem m W Wq self H0 g0 H g c, sane rnd -> (0 <= u)%R -> (0 <= t <= 1)%R -> accurate u t rnd -> 0 < m -> m <= W ->
  eu_start mem m W Wq self H0 g0 -> eu_rnd rnd mem g0 (map finc H) = Ok g -> calculated_fully (H0 ++ H) c ->
  let S := wS W (H0 ++ H) in let Q := wQ self W Wq (H0 ++ H) in has_col m S Q c ->
  exists g' ds, @eu_calc_column R (NumRnd rnd) mem g c = Ok (g', ds) /\ length ds = length Q + 1 - m /\
    forall i, i + m <= length Q -> exists x, nth_error ds i = Some (Fin x) /\ (0 <= x)%R /\
      let exact := euclid (sub m Q i) (sub m S c) in
      let threshold := ((1 + u) / 10 ^ 15 + u * t)%R in
      let err := (((1 + u) ^ (m + 4) - 1) * (extent m Q S i c + INR (4 * m) * t + threshold) + threshold)%R in
      (Rabs (x - exact) <= (1 + u) * sqrt err + u * (exact + t))%R.
Proof.
  intros rnd u t mem m W Wq self H0 g0 H g c HS Hu Ht Ha Hm HW HS0 E Hf S Q HC. pose proof (eu_start_inv HS Hm HW HS0) as I0.
  pose proof (@einv_run rnd HS m W Wq self Hm HW mem H H0 g0 g I0 E) as I. pose proof (einv_full Hm HW I Hf) as Hp.
  destruct (@full_col rnd u t mem m W Wq self (H0 ++ H) g c HS Hu Ht Ha Hm I Hp HC) as (g' & vs & Ec & L & G). fold S Q in L, G.
  exists g', (map (@froot R (NumRnd rnd)) (fin vs)). split; [exact Ec|]. split; [rewrite !map_length; exact L|]. destruct (@eu_col_fin rnd HS mem g c g' _ (proj1 I) Ec) as (_ & _ & P). specialize (P Hp).
  intros i Hi. destruct (G i Hi) as (G1 & G2 & G3). assert (Ev : nth_error vs i = Some (nth i vs 0%R)) by (apply nth_error_nth'; lia). set (v := nth i vs 0%R) in *.
  assert (Ex : nth_error (map (@froot R (NumRnd rnd)) (fin vs)) i = Some (@froot R (NumRnd rnd) (Fin v))) by (rewrite !nth_error_map, Ev; reflexivity).
  rewrite Forall_forall in P. destruct (P _ (nth_error_In _ _ Ex)) as (x & Efx & Hx). exists x. rewrite Ex, Efx. split; [reflexivity|]. split; [exact Hx|]. cbn zeta.
  unfold froot, fsqrt in Efx. cbn [nltb NumRnd nzero nsqrt] in Efx. unfold Rltb in Efx. destruct (Rlt_dec v 0) as [N|N]; [discriminate|]. injection Efx as <-. apply (root_off Hu Ha); [lra|exact G1|exact G3].
Qed.
Print Assumptions C100_full.

(** ** Double precision *)
Lemma res_back {S T} {R : S -> T -> Prop} {r r' s'} : res_sim R r r' -> r' = Ok s' -> exists s, r = Ok s /\ R s s'.
Proof. intros H ->. destruct r as [s|e]; [|contradiction]. exists s. split; [reflexivity|exact H]. Qed.
Theorem C100_binary64 : forall mem sf m S q g0 H c, let Q := query_or S q in 0 < m -> has_col m S Q c -> small_nat (length S) -> small_nat (length Q) -> small_nat (length H + 1) ->
  (forall x, In x S -> moderate x) -> (forall x, In x Q -> moderate x) -> @eu_prepare f64 mem sf m S q = Ok g0 -> calc_only m S Q H ->
  exists g g' ds, @eu_calls f64 NumF mem g0 H = Ok g /\ @eu_calc_column f64 NumF mem g c = Ok (g', ds) /\ length ds = length Q + 1 - m /\
    let u := bpow radix2 (-53) in let t := bpow radix2 (-1022) in
    forall i x, nth_error ds i = Some x ->
      let exact := euclid (sub m (map value Q) i) (sub m (map value S) c) in
      let err := sq_error u t m (map value Q) (map value S) i c in
      (exists f, x = Fin f /\ dbl f /\ (Rabs (val f - exact) <= (1 + u) * sqrt err + u * (exact + t))%R) \/ (x = NaN /\ (exact <= sqrt err)%R).
Proof.
  intros mem sf m S q g0 H c Q Hm [Hc HQ] BS BQ BH MS MQ E0 HC. unfold small_nat in *.
  assert (Hu : (0 <= bpow radix2 (-53))%R) by apply bpow_ge_0. assert (Ht : (0 <= bpow radix2 (-1022) <= 1)%R) by (split; [apply bpow_ge_0|]; apply (bpow_le radix2 (-1022) 0); lia).
  assert (G0 : res_sim (eu_sim 0) (eu_prepare mem sf m S q) (eu_prepare (fun _ => NaN) sf m (fin (map value S)) (option_map (map (@Fin R)) (option_map (map value) q)))).
  { apply sim_eu_batch; auto; [lia| | |apply moderate_list, MS|].
    - intros l ->. cbn in Q. unfold Q in HQ. lia.
    - intros l ->. exact BQ.
    - destruct q as [q|]; [|exact I]. cbn. apply moderate_list. exact MQ. }
  destruct (res_ok G0 E0) as (g0' & E0' & S0).
  assert (EQ : query_or (map value S) (option_map (map value) q) = map value Q) by (unfold Q; destruct q; reflexivity).
  assert (HC' : calc_only m (map value S) (map value Q) (map valc H)).
  { intros o Ho. apply in_map_iff in Ho. destruct Ho as (o' & <- & Ho). specialize (HC _ Ho). destruct o'; cbn; try contradiction; unfold has_col, has_diag in *; rewrite !map_length; exact HC. }
  destruct (@C100_columns rnd64 _ _ (fun _ => NaN) sf m (map value S) (option_map (map value) q) g0' (map valc H) c rnd64_sane Hu Ht rnd64_accurate Hm) as (g' & g1' & ds' & E' & Ec' & L' & B'); [rewrite EQ; split; rewrite map_length; assumption|exact E0'|rewrite EQ; exact HC'|].
  rewrite EQ in L', B'.
  assert (CS : all2 call_sim H (map finc (map valc H))).
  { apply moderate_sim. assert (P : forall H', calc_only m S Q H' -> s_points H' = [] /\ q_points H' = []).
    { induction H' as [|o H' IH]; intro K; [auto|]. destruct (IH (fun o' Ho' => K o' (or_intror Ho'))) as [P1 P2]. specialize (K o (or_introl eq_refl)). destruct o; try contradiction; cbn; split; assumption. }
    destruct (P H HC) as [P1 P2]. split; rewrite ?P1, ?P2; intros x []. }
  assert (HL : (0 + Z.of_nat (length H) <= 2 ^ 40)%Z) by lia. assert (HN : (Z.of_nat (length H) < 2 ^ 40)%Z) by lia.
  pose proof (@sim_eu_run mem (fun _ => NaN) H _ CS 0%Z g0 g0' (Z.le_refl 0) HL S0) as GR. destruct (res_back GR E') as (g & E & Sg). rewrite Z.add_0_l in Sg.
  destruct (res_back (@sim_eu_col _ mem (fun _ => NaN) g g' c (Zle_0_nat _) HN Sg) Ec') as ([g1 ds] & Ec & _ & R). cbn [snd] in R.
  exists g, g1, ds. split; [exact E|]. split; [exact Ec|]. split; [rewrite (all2_length R), L', map_length; reflexivity|]. cbn zeta. intros i x Ex.
  pose proof (@sim_nth _ _ _ _ _ i R) as N. rewrite Ex in N. destruct (nth_error ds' i) as [y|] eqn:Ey; [|contradiction]. specialize (B' _ _ Ey).
  destruct N as [(f & -> & -> & D & _)|[-> ->]].
  - left. exists f. split; [reflexivity|]. split; [exact D|]. destruct B' as [(a & Ea & B)|[Ea _]]; [|discriminate]. injection Ea as <-. exact B.
  - right. split; [reflexivity|]. destruct B' as [(a & Ea & B)|[_ B]]; [discriminate|exact B].
Qed.
Print Assumptions C100_binary64.

(** The error is not relative to the distance: at 10^9 the distance 1 is calculated as 0. *)
Theorem C100_relative_refuted : exists m S Q g g' ds,
  eu_prepare nothing 2 m (Fs S) (Some (Fs Q)) = Ok g /\ has_col m S Q 0 /\ @eu_calc_column f64 NumF nothing g 0 = Ok (g', ds) /\ ds = [Fin (S754_zero false)] /\
  euclid (sub m (map IZR Q) 0) (sub m (map IZR S) 0) = 1%R.
Proof.
  exists 1, [10 ^ 9 + 1]%Z, [10 ^ 9]%Z. do 3 eexists. split; [vm_compute; reflexivity|]. split; [split; cbn; lia|]. split; [vm_compute; reflexivity|]. split; [reflexivity|].
  unfold euclid, sqd, psum, rsum, sub. cbn -[IZR sqrt]. match goal with |- sqrt ?x = _ => replace x with (1 * 1)%R by lra end. apply sqrt_square. lra.
Qed.
Print Assumptions C100_relative_refuted.

(** ** Examples *)
(** Row 1 of column 2, calculated from column 1: the pairs (0,3), (0,4), (4,1) of its diagonal *)
Example C100_bound : forall u t, sq_error u t 2 rq rs 1 2 =
  (((1 + u) ^ 8 - 1) * (59 + 10 * t + ((1 + u) / 10 ^ 15 + u * t)) + ((1 + u) / 10 ^ 15 + u * t))%R.
Proof.
  intros u t. unfold sq_error. cbn [Nat.min Nat.sub Nat.add Nat.mul].
  replace (extent 3 rq rs 0 1) with 50%R by (unfold extent, psum, rsum, rq, rs, sub; cbn; rewrite !Rabs_pos_eq by lra; lra).
  replace (extent 1 rq rs 0 1) with 9%R by (unfold extent, psum, rsum, rq, rs, sub; cbn; rewrite !Rabs_pos_eq by lra; lra).
  replace (INR 10) with 10%R by (simpl; lra). ring.
Qed.
Example C100_example : exists g0 g g' ds, @eu_prepare f64 nothing 2 2 bs (Some bq) = Ok g0 /\ @eu_calls f64 NumF nothing g0 [CCol 0; CCol 1] = Ok g /\
  @eu_calc_column f64 NumF nothing g 2 = Ok (g', ds) /\ length ds = 2 /\ nth_error ds 1 = Some (F 5) /\
  let u := bpow radix2 (-53) in let t := bpow radix2 (-1022) in
  (exists f, F 5 = Fin f /\ dbl f /\ (Rabs (val f - euclid (sub 2 (map value bq) 1) (sub 2 (map value bs) 2)) <= (1 + u) * sqrt (sq_error u t 2 (map value bq) (map value bs) 1 2) + u * (euclid (sub 2 (map value bq) 1) (sub 2 (map value bs) 2) + t))%R).
Proof.
  assert (HE : exists g0, @eu_prepare f64 nothing 2 2 bs (Some bq) = Ok g0) by (eexists; vm_compute; reflexivity). destruct HE as (g0 & E0).
  destruct (@C100_binary64 nothing 2 2 bs (Some bq) g0 [CCol 0; CCol 1] 2) as (g & g' & ds & E & Ec & L & B); try (unfold small_nat; cbn; lia); try exact E0.
  - split; cbn; lia.
  - ints.
  - ints.
  - intros o [<-|[<-|[]]]; split; cbn; lia.
  - exists g0, g, g', ds. assert (N : nth_error ds 1 = Some (F 5)).
    { vm_compute in E0. injection E0 as <-. vm_compute in E. injection E as <-. vm_compute in Ec. injection Ec as _ <-. vm_compute. reflexivity. }
    repeat (split; [assumption|]). cbn zeta. destruct (B _ _ N) as [G|[G _]]; [exact G|discriminate].
Qed.

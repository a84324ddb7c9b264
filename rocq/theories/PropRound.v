(** * PropRound: the generators in arithmetic that rounds

    The theorems hold for every rounding function of the kind described in SRound.v; the refutations are runs of the model in
    IEEE double precision (InstF.v). *)
From Coq Require Import QArith Reals Lra Floats.SpecFloat.
From Verif Require Import Np NpFacts MUtil MArith MCache MEuclid MZnorm SReal SCalc SGen SRound InstF PGenRun PRound PRoundGen PRoundEu PZnorm.
Set Implicit Arguments.
Open Scope nat_scope.

(** A number, at least 0 *)
Definition a_distance (x : num R) : Prop := exists a, x = Fin a /\ (0 <= a)%R.

(** The Euclidean generator when every operation is rounded by [rnd]: streaming and batch, and a sequence of calls *)
Definition eu_rnd (rnd : R -> R) (mem : nat -> num R) :=
  grun (@eu_calc_column R (NumRnd rnd) mem) (@eu_calc_diagonal R (NumRnd rnd)) (@eu_append_series R) (@eu_append_query R).
Inductive eu_start (mem : nat -> num R) (m W Wq : nat) (self : bool) : list (gcall R) -> cache -> Prop :=
| eu_streaming sf g : (1 <= sf)%Q -> (self = false -> 0 < Wq) -> eu_prepare_streaming mem sf m W (if self then None else Some Wq) = Ok g -> eu_start mem m W Wq self [] g
| eu_batched sf S q g : length S = W -> length (query_or S q) = Wq -> 0 < Wq -> self_of q = self ->
    eu_prepare mem sf m (fin S) (option_map (map (@Fin R)) q) = Ok g -> eu_start mem m W Wq self (loaded S q) g.
Lemma eu_start_inv rnd mem m W Wq self H g : sane rnd -> 0 < m -> m <= W -> eu_start mem m W Wq self H g -> einv m W Wq self H g.
Proof.
  intros HR Hm HW [sf g0 Hsf Hq E|sf S q g0 HS HQ HQ0 Hs E].
  - eapply einv_streaming; eassumption.
  - subst. eapply einv_batch; eassumption.
Qed.

(** C65. Diagonals of the Euclidean generator are never NaN. *)
Theorem C65_numbers : forall rnd mem m W Wq self H0 g0 H g d g' ds, sane rnd -> 0 < m -> m <= W ->
  eu_start mem m W Wq self H0 g0 -> eu_rnd rnd mem g0 (map finc H) = Ok g -> @eu_calc_diagonal R (NumRnd rnd) g d = Ok (g', ds) ->
  Forall a_distance ds.
Proof.
  intros rnd mem m W Wq self H0 g0 H g d g' ds HR Hm HW HS E Ed. pose proof (eu_start_inv HR Hm HW HS) as I0.
  pose proof (@einv_run rnd HR m W Wq self Hm HW mem H H0 g0 g I0 E) as I. destruct I as (C & _). exact (proj2 (eu_diag_fin HR _ C Ed)).
Qed.
Print Assumptions C65_numbers.

(** Their error: relative to the distance of everything before on the diagonal. *)
Theorem C65_error : forall rnd u t mem m W Wq self H0 g0 H g d, sane rnd -> (0 <= u)%R -> (0 <= t <= 1)%R -> accurate u t rnd -> 0 < m -> m <= W ->
  eu_start mem m W Wq self H0 g0 -> eu_rnd rnd mem g0 (map finc H) = Ok g ->
  let S := wS W (H0 ++ H) in let Q := wQ self W Wq (H0 ++ H) in has_diag m S Q d ->
  exists ds, @eu_calc_diagonal R (NumRnd rnd) g d = Ok (g, ds) /\ length ds = Z.to_nat (dlen (length Q + 1 - m) (length S + 1 - m) d) /\
    let a := Z.to_nat (Z.max 0 (- d)) in let b := Z.to_nat (Z.max 0 d) in
    forall r, r < length ds -> exists x, nth_error ds r = Some (Fin x) /\
      let before := (sqd (sub (r + m) Q a) (sub (r + m) S b) + sqd (sub r Q a) (sub r S b))%R in
      let exact := euclid (sub m Q (a + r)) (sub m S (b + r)) in
      (Rabs (x - exact) <= (1 + u) * sqrt (((1 + u) ^ (r + m + 4) - 1) * (before + INR (2 * r + m) * t)) + u * (exact + t))%R.
Proof.
  intros rnd u t mem m W Wq self H0 g0 H g d HR Hu Ht Ha Hm HW HS E S Q Hd. pose proof (eu_start_inv HR Hm HW HS) as I0.
  pose proof (@einv_run rnd HR m W Wq self Hm HW mem H H0 g0 g I0 E) as I. pose proof (einv_query I) as VQ. destruct I as (C & Em & _ & _ & VS & _).
  destruct (@eu_diag_error rnd u t HR Hu Ht Ha g m S Q d Hm C Em VS VQ Hd) as (ds & Ed & L & G). exists ds. split; [exact Ed|]. split; [exact L|].
  cbn zeta in G |- *. intros r Hr. destruct (G r Hr) as (x & Ex & _ & B). exists x. split; [exact Ex|exact B].
Qed.
Print Assumptions C65_error.

(** C66. Columns of the Euclidean generator: numbers, when they do not follow the last column.  Missing: columns that are
    derived from the last one, which can be NaN (below). *)
Theorem C66_columns_partial : forall rnd mem m W Wq self H0 g0 H g c g' ds, sane rnd -> 0 < m -> m <= W ->
  eu_start mem m W Wq self H0 g0 -> eu_rnd rnd mem g0 (map finc H) = Ok g -> @eu_calc_column R (NumRnd rnd) mem g c = Ok (g', ds) ->
  Forall (fun x => a_distance x \/ x = NaN) ds /\ (calculated_fully (H0 ++ H) c -> Forall a_distance ds).
Proof.
  intros rnd mem m W Wq self H0 g0 H g c g' ds HR Hm HW HS E Ed. pose proof (eu_start_inv HR Hm HW HS) as I0.
  pose proof (@einv_run rnd HR m W Wq self Hm HW mem H H0 g0 g I0 E) as I. destruct (@eu_col_fin rnd HR mem g c g' ds (proj1 I) Ed) as (_ & G1 & G2).
  split; [exact G1|]. intro Hc. apply G2. eapply einv_full; eassumption.
Qed.
Print Assumptions C66_columns_partial.

(** C67. The distances of the z-normalised generator are never NaN. *)
Definition zn_rnd (rnd : R -> R) (mem : nat -> num R) :=
  grun (@zn_calc_column R (NumRnd rnd) mem) (@zn_calc_diagonal R (NumRnd rnd)) (@zn_append_series R (NumRnd rnd)) (@zn_append_query R (NumRnd rnd)).
Inductive zn_start (rnd : R -> R) (mem : nat -> num R) (memb : nat -> bool) (noise : R) : zn -> Prop :=
| zn_streaming sf m W Wq g : 0 < m -> m <= W -> (forall w, Wq = Some w -> m <= w) -> @zn_prepare_streaming R (NumRnd rnd) mem memb (Fin noise) sf m W Wq = Ok g -> zn_start rnd mem memb noise g
| zn_batched sf m S q g : 0 < m -> m <= length S -> (forall l, q = Some l -> m <= length l) ->
    @zn_prepare R (NumRnd rnd) mem memb (Fin noise) sf m (fin S) (option_map (map (@Fin R)) q) = Ok g -> zn_start rnd mem memb noise g.
Lemma finite_calls H : Forall finite_call (map finc H).
Proof. rewrite Forall_map. apply Forall_forall. intros [xs|xs|c|d] _; cbn; try exact I; apply all_fin. Qed.
Lemma zn_start_fin rnd mem memb noise g : sane rnd -> zn_start rnd mem memb noise g -> zfin rnd g.
Proof.
  intros HR [sf m W Wq g0 Hm HW Hq E|sf m S q g0 Hm HW Hq E].
  - unfold zn_prepare_streaming in E. apply bind_ok in E. destruct E as (t & Et & E). unfold zn_config in Et. destruct (fltb _ _); [discriminate|]. destruct (Qle_bool 1 sf) eqn:Eq; [|discriminate]. apply Qle_bool_iff in Eq.
    eapply zfin_empty; [exact Hm|exact HW|exact Hq|exact Eq| |exact E]. eexists. reflexivity.
  - unfold zn_prepare in E. apply bind_ok in E. destruct E as (t & _ & E). apply bind_ok in E. destruct E as (g1 & E1 & E). apply bind_ok in E. destruct E as (g2 & E2 & E).
    assert (Z1 : zfin rnd g1).
    { eapply zfin_empty; [exact Hm| | | | |exact E1]; [rewrite map_length; exact HW| |discriminate|eexists; reflexivity].
      intros w Hw. destruct q as [l|]; [|discriminate]. cbn in Hw. injection Hw as <-. rewrite map_length. apply Hq. reflexivity. }
    assert (Z2 : zfin rnd g2) by (eapply (zfin_append_series HR); [exact Z1|apply all_fin|exact E2]).
    destruct q as [l|]; cbn [option_map] in E; [|injection E as <-; exact Z2]. eapply (zfin_append_query HR); [exact Z2|apply all_fin|exact E].
Qed.
Theorem C67_numbers : forall rnd mem memb noise g0 H g, sane rnd -> zn_start rnd mem memb noise g0 -> zn_rnd rnd mem g0 (map finc H) = Ok g ->
  (forall c g' ds, @zn_calc_column R (NumRnd rnd) mem g c = Ok (g', ds) -> Forall a_distance ds) /\
  (forall d g' ds, @zn_calc_diagonal R (NumRnd rnd) g d = Ok (g', ds) -> Forall a_distance ds) /\
  (forall r c dot x, @zn_calc_single R (NumRnd rnd) g r c (option_map (@Fin R) dot) = Ok x -> a_distance x).
Proof.
  intros rnd mem memb noise g0 H g HR HS E. pose proof (zn_start_fin HR HS) as Z0. pose proof (zfin_run HR mem Z0 (finite_calls H) E) as Z. repeat split.
  - intros c g' ds Ec. exact (proj2 (zn_col_fin HR _ _ Z Ec)).
  - intros d g' ds Ed. exact (proj2 (zn_diag_fin HR _ Z Ed)).
  - intros r c dot x Ex. refine (zn_single_fin HR _ _ Z _ Ex). intros y Hy. destruct dot as [a|]; [|discriminate]. injection Hy as <-. exists a. reflexivity.
Qed.
Print Assumptions C67_numbers.

(** ** Double precision *)
Definition nothing (_ : nat) : num f64 := NaN.
Definition Fs (l : list Z) : list (num f64) := map F l.
Definition Fc (o : gcall Z) : gcall (num f64) :=
  match o with CSeries xs => CSeries (Fs xs) | CQuery xs => CQuery (Fs xs) | CCol c => CCol c | CDiag d => CDiag d end.
Definition eu_f64 := grun (@eu_calc_column f64 NumF nothing) (@eu_calc_diagonal f64 NumF) (@eu_append_series f64) (@eu_append_query f64).

(** The error of a diagonal is not relative to the distance: after a difference of 10^9 a distance of 1 is calculated as 0. *)
Theorem C65_relative_refuted : exists m S Q d r g g' ds,
  eu_prepare nothing 2 m (Fs S) (Some (Fs Q)) = Ok g /\ eu_calc_diagonal g d = Ok (g', ds) /\
  has_diag m S Q d /\ nth_error ds r = Some (Fin (S754_zero false)) /\
  euclid (sub m (map IZR Q) r) (sub m (map IZR S) r) = 1%R.
Proof.
  exists 1, [10 ^ 9; 1]%Z, [0; 0]%Z, 0%Z, 1. do 3 eexists. split; [vm_compute; reflexivity|]. split; [vm_compute; reflexivity|].
  split; [exists 0, 0; cbn; lia|]. split; [reflexivity|]. unfold euclid, sqd, psum, rsum, sub. cbn -[IZR sqrt]. match goal with |- sqrt ?x = _ => replace x with (1 * 1)%R by lra end. apply sqrt_square. lra.
Qed.
Print Assumptions C65_relative_refuted.

(** Columns 0, 1 and 2 of a series of four integers: NaN. *)
Theorem C66_columns_refuted : exists m S Q H c g0 g g' ds,
  calc_only m S Q H /\ has_col m S Q c /\
  eu_prepare nothing 2 m (Fs S) (Some (Fs Q)) = Ok g0 /\ eu_f64 g0 (map Fc H) = Ok g /\ eu_calc_column nothing g c = Ok (g', ds) /\ In NaN ds.
Proof.
  exists 2, [10 ^ 9; 1; 0; 0]%Z, [0; 0; 0; 0]%Z, [CCol 0; CCol 1], 2. do 4 eexists.
  split; [intros o [<-|[<-|[]]]; split; cbn; lia|]. split; [split; cbn; lia|].
  split; [vm_compute; reflexivity|]. split; [vm_compute; reflexivity|]. split; [vm_compute; reflexivity|]. right. right. left. reflexivity.
Qed.
Print Assumptions C66_columns_refuted.

(** Constant windows of large values are not recognised as flat: their distance, 0, is calculated as more than a million.  Two z-normalised
    sequences of length 3 are never further apart than 2 sqrt(3). *)
Theorem C67_range_refuted : exists (a b x : num f64) g g',
  zn_prepare nothing (fun _ => false) (F 0) 2 3 [a; a; a; b; b; b] None = Ok g /\ zn_calc_diagonal g 3 = Ok (g', [x]) /\ fltb (F 1000000) x = true /\
  forall y z : R, zdef [y; y; y] [z; z; z] = 0%R.
Proof.
  exists (Dec 1373554619521 1), (Dec 1302930918446 1). do 3 eexists. split; [vm_compute; reflexivity|]. split; [vm_compute; reflexivity|]. split; [vm_compute; reflexivity|].
  intros y z. assert (M : forall t, mean [t; t; t] = t) by (intro t; unfold mean, rsum; cbn; field).
  assert (S0 : forall t, std [t; t; t] = 0%R). { intro t. unfold std. rewrite M. cbn [map]. rewrite M. replace ((t - t) * (t - t))%R with 0%R by ring. apply sqrt_0. }
  assert (U : forall t, uneven [t; t; t] = false). { intro t. unfold uneven. rewrite S0. unfold Rltb. destruct (Rlt_dec _ 0) as [N|N]; [exfalso|reflexivity]. assert (0 < / 10 ^ 6)%R by (apply Rinv_0_lt_compat, pow_lt; lra). lra. }
  unfold zdef. rewrite !U. reflexivity.
Qed.
Print Assumptions C67_range_refuted.

(** ** Examples: truncation to 53 bits *)
Example C65_rounding : sane (chop 53) /\ accurate (powerRZ 2 (1 - 53)) 0 (chop 53).
Proof. split; [exact chop_sane|apply chop_accurate; lia]. Qed.
Definition rs : list R := [0; 3; 4; 1]%R.
Definition rq : list R := [0; 0; 4]%R.
Definition rcalls : list (gcall R) := [CCol 0; CCol 1; CDiag 1; CCol 2].
Ltac run_chop := cbv -[R IZR Rplus Rminus Rmult Rdiv Ropp Rinv sqrt Rltb chop].
Lemma rstart mem : exists g0, eu_start mem 2 4 3 false (loaded rs (Some rq)) g0 /\ exists g, eu_rnd (chop 53) mem g0 (map finc rcalls) = Ok g /\
  exists g' ds, @eu_calc_column R (NumRnd (chop 53)) mem g 1 = Ok (g', ds) /\ length ds = 2.
Proof.
  eexists. split; [apply (@eu_batched mem 2 4 3 false 2 rs (Some rq)); [reflexivity|reflexivity|lia|reflexivity|run_chop; reflexivity]|].
  eexists. split; [run_chop; reflexivity|]. do 2 eexists. split; [run_chop; reflexivity|reflexivity].
Qed.
Example C65_example mem : exists g0 g ds x, eu_start mem 2 4 3 false (loaded rs (Some rq)) g0 /\ eu_rnd (chop 53) mem g0 (map finc rcalls) = Ok g /\
  @eu_calc_diagonal R (NumRnd (chop 53)) g 1 = Ok (g, ds) /\ Forall a_distance ds /\ nth_error ds 1 = Some (Fin x) /\
  let u := powerRZ 2 (1 - 53) in (Rabs (x - sqrt 25) <= (1 + u) * sqrt (((1 + u) ^ 7 - 1) * 43) + u * sqrt 25)%R.
Proof.
  destruct (rstart mem) as (g0 & S0 & g & Eg & _). assert (Hu : (0 <= powerRZ 2 (1 - 53))%R) by (left; apply powerRZ_lt; lra).
  destruct C65_rounding as [HR HA]. destruct (@C65_error (chop 53) _ 0%R mem 2 4 3 false _ g0 rcalls g 1%Z HR Hu ltac:(lra) HA ltac:(lia) ltac:(lia) S0 Eg) as (ds & Ed & L & G); [exists 0, 1; cbn; lia|].
  assert (L2 : length ds = 2) by (rewrite L; reflexivity). destruct (G 1 ltac:(lia)) as (x & Ex & B). exists g0, g, ds, x. repeat (split; [assumption|]).
  split; [eapply (@C65_numbers (chop 53) mem 2 4 3 false); try eassumption; lia|]. split; [exact Ex|]. cbn zeta in B |- *. rewrite Rmult_0_r, !Rplus_0_r in B. revert B.
  match goal with |- context [(sqd ?a ?b + sqd ?c ?d)%R] => replace (sqd a b + sqd c d)%R with 43%R by (cbv -[R IZR Rplus Rminus Rmult]; lra) end.
  match goal with |- context [euclid ?a ?b] => replace (euclid a b) with (sqrt 25) by (unfold euclid; f_equal; cbv -[R IZR Rplus Rminus Rmult]; lra) end. exact (fun H => H).
Qed.
Example C66_example mem : exists g0 g g' ds, eu_start mem 2 4 3 false (loaded rs (Some rq)) g0 /\ eu_rnd (chop 53) mem g0 (map finc rcalls) = Ok g /\
  @eu_calc_column R (NumRnd (chop 53)) mem g 1 = Ok (g', ds) /\ length ds = 2 /\ Forall (fun x => a_distance x \/ x = NaN) ds /\ calculated_fully (loaded rs (Some rq) ++ [CCol 2; CDiag 0]) 2.
Proof.
  destruct (rstart mem) as (g0 & S0 & g & Eg & g' & ds & Ec & L). exists g0, g, g', ds. repeat (split; [assumption|]).
  split; [eapply (@C66_columns_partial (chop 53) mem 2 4 3 false); try eassumption; try lia; apply C65_rounding|].
  right. right. split; [|intros [N|[N|[N|[N|[]]]]]; discriminate].
  intros H1 c H2 xs E N. destruct H1 as [|o1 [|o2 [|o3 [|o4 H1]]]]; cbn in E; inversion E; subst; [destruct N as [N|[]]; discriminate|]. destruct H1; discriminate.
Qed.
Example C67_example mem memb : exists g0 g, zn_start (chop 53) mem memb 0 g0 /\ zn_rnd (chop 53) mem g0 [] = Ok g /\
  exists g' ds, @zn_calc_column R (NumRnd (chop 53)) mem g 0 = Ok (g', ds) /\ length ds = 2 /\ Forall a_distance ds.
Proof.
  assert (N0 : (if Rltb 0 0 then true else false) = false) by (unfold Rltb; destruct (Rlt_dec 0 0); [lra|reflexivity]).
  assert (G : exists g0, @zn_prepare R (NumRnd (chop 53)) mem memb (Fin 0%R) 2 2 (fin rs) (option_map (map (@Fin R)) (Some rq)) = Ok g0 /\
    exists g' ds, @zn_calc_column R (NumRnd (chop 53)) mem g0 0 = Ok (g', ds) /\ length ds = 2).
  { unfold zn_prepare, zn_config. cbn [fltb fzero nltb nzero NumRnd]. destruct (Rltb 0 0); [discriminate|]. cbn [bind negb Qle_bool]. 
    eexists. split; [run_chop; reflexivity|]. do 2 eexists. split; [run_chop; reflexivity|reflexivity]. }
  destruct G as (g0 & E0 & g' & ds & Ec & L). exists g0, g0. assert (Z0 : zn_start (chop 53) mem memb 0 g0) by (eapply zn_batched; [| | |exact E0]; [lia|cbn; lia|intros l El; injection El as <-; cbn; lia]).
  split; [exact Z0|]. split; [reflexivity|]. exists g', ds. split; [exact Ec|]. split; [exact L|]. destruct (@C67_numbers (chop 53) mem memb 0 g0 [] g0 chop_sane Z0 eq_refl) as (G & _). exact (G _ _ _ Ec).
Qed.

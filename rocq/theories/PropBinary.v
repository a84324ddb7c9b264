(** * PropBinary: the generators in double precision

    [NumF] is IEEE binary64 (SpecFloat, round to nearest even, with overflow).  The theorems of PropRound.v about rounded
    arithmetic are transferred to it, for data up to 2^200: then nothing overflows. *)
From Coq Require Import QArith Reals Lia Lra Floats.SpecFloat.
From Flocq Require Import Core.
From Verif Require Import Np NpFacts MUtil MArith MCache MEuclid MZnorm SReal SCalc SGen SRound InstF PGenRun PTotal PRound PRoundGen PRoundEu PropRound PropTotal PSim PFloat PBinary PBinaryZn PBinaryEu.
Set Implicit Arguments.
Open Scope nat_scope.
#[local] Existing Instance NB.

(** A double of at most 2^200; its value *)
Definition moderate (x : num f64) : Prop := exists f, x = Fin f /\ dbl f /\ (Rabs (val f) <= bpow radix2 200)%R.
Definition value (x : num f64) : R := match x with Fin f => val f | _ => 0%R end.
(** A double that is at least 0 *)
Definition a_distance64 (x : num f64) : Prop := exists f, x = Fin f /\ dbl f /\ (0 <= val f)%R.
Definition moderate_calls (H : list (gcall (num f64))) : Prop := (forall x, In x (s_points H) -> moderate x) /\ (forall x, In x (q_points H) -> moderate x).
Definition small_nat (n : nat) : Prop := (Z.of_nat n <= 2 ^ 40)%Z.

Definition valc (o : gcall (num f64)) : gcall R :=
  match o with CSeries xs => CSeries (map value xs) | CQuery xs => CQuery (map value xs) | CCol c => CCol c | CDiag d => CDiag d end.

Lemma moderate_rel x : moderate x -> rel 200 x (Fin (value x)).
Proof. intros (f & -> & D & B). exists f. rewrite Rmult_1_l. auto. Qed.
Lemma moderate_list {l} : (forall x, In x l -> moderate x) -> all2 (rel 200) l (fin (map value l)).
Proof. induction l as [|x l IH]; intro H; cbn; constructor; [apply moderate_rel, H; left; reflexivity|apply IH; intros y Hy; apply H; right; exact Hy]. Qed.
Lemma moderate_fins {l} : (forall x, In x l -> moderate x) -> finite_data l.
Proof. intros H x Hx. destruct (H x Hx) as (f & -> & _). exists f. reflexivity. Qed.
Lemma moderate_sim {H} : moderate_calls H -> all2 call_sim H (map finc (map valc H)).
Proof.
  intros [H1 H2]. induction H as [|o H IH]; cbn [map]; constructor.
  - destruct o as [xs|xs|c|d]; cbn; try reflexivity; apply moderate_list; intros x Hx; [apply H1|apply H2]; apply in_or_app; left; exact Hx.
  - apply IH; intros x Hx; [apply H1|apply H2]; apply in_or_app; right; exact Hx.
Qed.
Lemma moderate_finite {H} : moderate_calls H -> PropTotal.finite_calls H.
Proof. intros [H1 H2]. split; apply moderate_fins; assumption. Qed.
Lemma moderate_app {H1 H2} : moderate_calls (H1 ++ H2) -> moderate_calls H1 /\ moderate_calls H2.
Proof.
  unfold moderate_calls, s_points, q_points. rewrite !flat_map_app. intros [A B]. repeat split; intros x Hx; [apply A|apply B|apply A|apply B]; apply in_or_app; auto.
Qed.
Lemma s_points_val H : s_points (map valc H) = map value (s_points H).
Proof. induction H as [|[xs|xs|c|d] H IH]; cbn; auto. unfold s_points in *. rewrite map_app, IH. reflexivity. Qed.
Lemma q_points_val H : q_points (map valc H) = map value (q_points H).
Proof. induction H as [|[xs|xs|c|d] H IH]; cbn; auto. unfold q_points in *. rewrite map_app, IH. reflexivity. Qed.
Lemma wS_val W H : wS W (map valc H) = map value (wS W H).
Proof. unfold wS. rewrite s_points_val. apply lastn_map. Qed.
Lemma wQ_val self W Wq H : wQ self W Wq (map valc H) = map value (wQ self W Wq H).
Proof. unfold wQ. destruct self; [apply wS_val|]. rewrite q_points_val. apply lastn_map. Qed.
Lemma loaded_val S q : map valc (loaded S q) = loaded (map value S) (option_map (map value) q).
Proof. destruct q; reflexivity. Qed.
Lemma res_ok {S T} {R : S -> T -> Prop} {r r' s} : res_sim R r r' -> r = Ok s -> exists t, r' = Ok t /\ R s t.
Proof. intros H ->. destruct r' as [t|e]; [|contradiction]. exists t. split; [reflexivity|exact H]. Qed.
Lemma rel_distance k x y : rel k x y -> nonneg y -> a_distance64 x.
Proof. intros (f & -> & -> & D & _) (a & E & Ha). apply Fin_inj in E. subst a. exists f. auto. Qed.
Lemma all2_distance k l l' : all2 (rel k) l l' -> Forall nonneg l' -> Forall a_distance64 l.
Proof. induction 1 as [|x y l l' Hx _ IH]; intro H; constructor; inversion H; subst; [eapply rel_distance; eassumption|apply IH; assumption]. Qed.

(** ** The z-normalised generator *)
(** The calls that produce the generator *)
Inductive zn64_start (mem : nat -> num f64) (memb : nat -> bool) (noise : num f64) (m W Wq : nat) (self : bool) : list (gcall (num f64)) -> zn -> Prop :=
| zn64_streaming sf g : (1 <= sf)%Q -> (sf <= 2)%Q -> zn_prepare_streaming mem memb noise sf m W (if self then None else Some Wq) = Ok g -> zn64_start mem memb noise m W Wq self [] g
| zn64_batched sf S q g : length S = W -> length (query_or S q) = Wq -> self_of q = self -> zn_prepare mem memb noise sf m S q = Ok g -> zn64_start mem memb noise m W Wq self (loaded S q) g.

Lemma zn64_start_sim mem memb noise m W Wq self H0 g0 : moderate noise -> 0 < m -> m <= W -> (self = false -> m <= Wq) -> small_nat W -> small_nat Wq ->
  zn64_start mem memb noise m W Wq self H0 g0 -> moderate_calls H0 -> exists g', zn_sim 0 g0 g' /\ @zinvl f64 m W Wq self (wS W H0) (wQ self W Wq H0) g0.
Proof.
  intros Hn Hm HW HWq SW SQ [sf g H1 H2 E|sf S q g LS LQ Es E] HM.
  - unfold zn_prepare_streaming in E. apply bind_ok in E. destruct E as ([] & _ & E).
    assert (G : res_sim (zn_sim 0) (zn_empty mem memb noise sf m W (if self then None else Some Wq)) (zn_empty (fun _ => NaN) memb (Fin (value noise)) sf m W (if self then None else Some Wq))).
    { apply sim_zn_empty; auto; [| |apply moderate_rel, Hn]; intros w Ew; destruct self; try discriminate; injection Ew as <-; auto. }
    destruct (res_ok G E) as (g' & _ & Hg). exists g'. split; [exact Hg|]. rewrite wS_nil, wQ_nil. destruct (@zn_empty_ok f64 mem memb noise sf m W Wq self Hm HW HWq H1 H2) as (g1 & E1 & I1). rewrite E in E1. injection E1 as <-. exact I1.
  - subst. assert (HN : calc_only m S (query_or S q) []) by (intros o []). pose proof (wS_batch _ HN) as E1. pose proof (wQ_batch _ HN) as E2. rewrite app_nil_r in E1, E2. rewrite E1, E2.
    assert (M1 : forall x, In x S -> moderate x) by (intros x Hx; apply (proj1 HM); unfold loaded; cbn; apply in_or_app; left; exact Hx).
    assert (M2 : forall x, In x (query_or S q) -> moderate x) by (destruct q as [q|]; [intros x Hx; apply (proj2 HM); cbn; rewrite app_nil_r; exact Hx|exact M1]).
    unfold zn_prepare in E. pose proof E as E0. apply bind_ok in E. destruct E as ([] & Ec & E). unfold zn_config in Ec. destruct (fltb noise fzero) eqn:En; [discriminate|]. destruct (negb (Qle_bool 1 sf)) eqn:Esf; [discriminate|]. apply negb_false_iff, Qle_bool_iff in Esf.
    assert (LQ : m <= length (query_or S q)) by (destruct q as [q|]; [apply HWq; reflexivity|exact HW]).
    destruct (@zn_batch_ok f64 NumF mem memb noise sf m S q En Hm HW LQ Esf (finite_fins (moderate_fins M1)) (finite_fins (moderate_fins M2))) as (g1 & Eg & Ig). unfold zn_prepare in Eg. rewrite E0 in Eg. injection Eg as <-.
    apply bind_ok in E. destruct E as (g1 & Eg1 & E). apply bind_ok in E. destruct E as (g2 & Eg2 & E).
    assert (G : res_sim (zn_sim 0) (zn_empty mem memb noise 1 m (length S) (option_map (@length (num f64)) q)) (zn_empty (fun _ => NaN) memb (Fin (value noise)) 1 m (length S) (option_map (@length (num f64)) q))).
    { apply sim_zn_empty; auto; [discriminate| | |apply moderate_rel, Hn]; intros w Ew; destruct q as [q|]; try discriminate; injection Ew as <-; auto. }
    destruct (res_ok G Eg1) as (g1' & _ & S1). destruct (res_ok (sim_zn_s S1 (moderate_list M1)) Eg2) as (g2' & _ & S2). destruct q as [q|].
    + destruct (res_ok (sim_zn_q S2 (moderate_list M2)) E) as (g3' & _ & S3). exists g3'. auto.
    + injection E as <-. exists g2'. auto.
Qed.

(** C69. In double precision the distances of the z-normalised generator are finite numbers, at least 0. *)
Theorem C69_numbers : forall mem memb noise m W Wq self H0 g0 H, moderate noise -> 0 < m -> m <= W -> (self = false -> m <= Wq) -> small_nat W -> small_nat Wq -> small_nat (length H + 1) ->
  zn64_start mem memb noise m W Wq self H0 g0 -> in_range self m W Wq (H0 ++ H) -> moderate_calls (H0 ++ H) ->
  exists g, @zn_calls f64 NumF mem g0 H = Ok g /\
    let S := wS W (H0 ++ H) in let Q := wQ self W Wq (H0 ++ H) in
    (forall c, has_col m S Q c -> exists g' ds, zn_calc_column mem g c = Ok (g', ds) /\ length ds = length Q + 1 - m /\ Forall a_distance64 ds) /\
    (forall d, has_diag m S Q d -> exists g' ds, zn_calc_diagonal g d = Ok (g', ds) /\ Z.of_nat (length ds) = dlen (length Q + 1 - m) (length S + 1 - m) d /\ Forall a_distance64 ds) /\
    (forall r c, r + m <= length Q -> c + m <= length S -> exists x, zn_calc_single g r c None = Ok x /\ a_distance64 x).
Proof.
  intros mem memb noise m W Wq self H0 g0 H Hn Hm HW HWq SW SQ SH HS Hr HM. destruct (moderate_app HM) as [M0 M1]. unfold small_nat in SH.
  destruct (zn64_start_sim Hn Hm HW HWq SW SQ HS M0) as (g0' & Z0 & I0). destruct (@zn_total_from f64 NumF mem m W Wq self H0 g0 H Hm HWq I0 Hr (moderate_finite M1)) as (g & E & Ig & A1 & A2).
  exists g. split; [exact E|]. cbn zeta. assert (HL : (0 + Z.of_nat (length H) <= 2 ^ 40)%Z) by lia.
  pose proof (@sim_zn_run mem (fun _ => NaN) H _ (moderate_sim M1) 0%Z g0 g0' (Z.le_refl 0) HL Z0) as G. destruct (res_ok G E) as (g' & _ & Zg). rewrite Z.add_0_l in Zg.
  assert (ZF : zfin rnd64 g') by apply Zg. repeat split.
  - intros c Hc. destruct (A1 c Hc) as (g1 & ds & Ec & L). exists g1, ds. split; [exact Ec|]. split; [exact L|]. assert (HN : (Z.of_nat (length H) < 2 ^ 40)%Z) by lia.
    destruct (res_ok (@sim_zn_col _ mem (fun _ => NaN) g g' c (Zle_0_nat _) HN Zg) Ec) as ([g1' ds'] & Ec' & _ & R). exact (all2_distance R (proj2 (zn_col_fin rnd64_sane _ _ ZF Ec'))).
  - intros d Hd. destruct (A2 d Hd) as (g1 & ds & Ed & L). exists g1, ds. split; [exact Ed|]. split; [exact L|].
    destruct (res_ok (@sim_zn_diag _ g g' d Zg) Ed) as ([g1' ds'] & Ed' & _ & _ & R). exact (all2_distance R (proj2 (zn_diag_fin rnd64_sane _ ZF Ed'))).
  - intros r c Hr' Hc. destruct (@zn_1_ok f64 NumF mem m W Wq self Hm HWq _ _ g r c None Ig Hr' Hc) as (x & Ex). exists x. split; [exact Ex|].
    destruct (res_ok (@sim_zn_single _ g g' r c None None Zg I) Ex) as (x' & Ex' & R). eapply rel_distance; [exact R|]. eapply (zn_single_fin rnd64_sane _ _ ZF); [|exact Ex']. discriminate.
Qed.
Print Assumptions C69_numbers.

(** ** The Euclidean generator *)
Inductive eu64_start (mem : nat -> num f64) (m W Wq : nat) (self : bool) : list (gcall (num f64)) -> cache -> Prop :=
| eu64_streaming sf g : (1 <= sf)%Q -> (sf <= 2)%Q -> eu_prepare_streaming mem sf m W (if self then None else Some Wq) = Ok g -> eu64_start mem m W Wq self [] g
| eu64_batched sf S q g : length S = W -> length (query_or S q) = Wq -> self_of q = self -> eu_prepare mem sf m S q = Ok g -> eu64_start mem m W Wq self (loaded S q) g.

Lemma eu64_start_sim mem m W Wq self H0 g0 : 0 < m -> m <= W -> 0 < Wq -> small_nat W -> small_nat Wq -> eu64_start mem m W Wq self H0 g0 -> moderate_calls H0 ->
  exists g', eu_sim 0 g0 g' /\ @linv f64 m W Wq self (wS W H0) (wQ self W Wq H0) g0 /\ einv m W Wq self (map valc H0) g'.
Proof.
  intros Hm HW HWq SW SQ [sf g H1 H2 E|sf S q g LS LQ Es E] HM.
  - assert (G : res_sim (eu_sim 0) (eu_prepare_streaming mem sf m W (if self then None else Some Wq)) (eu_prepare_streaming (fun _ => NaN) sf m W (if self then None else Some Wq))).
    { apply sim_eu_streaming; auto; intros w Ew; destruct self; try discriminate; injection Ew as <-; auto. }
    destruct (res_ok G E) as (g' & E' & Hg). exists g'. split; [exact Hg|]. split; [|eapply einv_streaming; eauto].
    destruct (@eu_streaming_ok f64 mem sf m W Wq self Hm HW (fun _ => HWq) H1 H2) as (g1 & E1 & I1). rewrite E in E1. injection E1 as <-. exact I1.
  - subst. assert (HN : calc_only m S (query_or S q) []) by (intros o []). pose proof (wS_batch _ HN) as E1. pose proof (wQ_batch _ HN) as E2. rewrite app_nil_r in E1, E2. rewrite E1, E2.
    assert (M1 : forall x, In x S -> moderate x) by (intros x Hx; apply (proj1 HM); unfold loaded; cbn; apply in_or_app; left; exact Hx).
    assert (M2 : forall l x, q = Some l -> In x l -> moderate x) by (intros l x -> Hx; apply (proj2 HM); cbn; rewrite app_nil_r; exact Hx).
    assert (G : res_sim (eu_sim 0) (eu_prepare mem sf m S q) (eu_prepare (fun _ => NaN) sf m (fin (map value S)) (option_map (map (@Fin R)) (option_map (map value) q)))).
    { apply sim_eu_batch; auto; [| |apply moderate_list, M1|]; [intros l ->; exact HWq|intros l ->; exact SQ|]. destruct q as [q|]; [|exact I]. cbn. apply moderate_list. intros x Hx. eapply M2; [reflexivity|exact Hx]. }
    destruct (res_ok G E) as (g' & E' & Hg). exists g'. split; [exact Hg|].
    assert (Esf : (1 <= sf)%Q) by (unfold eu_prepare in E; destruct (Qle_bool 1 sf) eqn:Esf; [apply Qle_bool_iff, Esf|discriminate]).
    destruct (@eu_batch_ok f64 mem sf m S q Hm HW HWq Esf) as (g1 & Eg & Ig). rewrite E in Eg. injection Eg as <-. split; [exact Ig|]. rewrite loaded_val.
    assert (LQ : length (query_or (map value S) (option_map (map value) q)) = length (query_or S q)) by (destruct q; apply map_length).
    replace (self_of q) with (self_of (option_map (map value) q)) by (destruct q; reflexivity). rewrite <- LQ, <- (map_length value S). eapply einv_batch; [exact Hm|rewrite map_length; exact HW|rewrite LQ; exact HWq|exact E'].
Qed.
Lemma eu64_run mem m W Wq self H0 g0 H : 0 < m -> m <= W -> 0 < Wq -> small_nat W -> small_nat Wq -> small_nat (length H + 1) -> eu64_start mem m W Wq self H0 g0 -> in_range self m W Wq (H0 ++ H) -> moderate_calls (H0 ++ H) ->
  exists g g', @eu_calls f64 NumF mem g0 H = Ok g /\ eu_sim (Z.of_nat (length H)) g g' /\ einv m W Wq self (map valc (H0 ++ H)) g' /\ answers (eu_calc_column mem) eu_calc_diagonal m (wS W (H0 ++ H)) (wQ self W Wq (H0 ++ H)) g.
Proof.
  intros Hm HW HWq SW SQ SH HS Hr HM. destruct (moderate_app HM) as [M0 M1]. unfold small_nat in SH. destruct (eu64_start_sim Hm HW HWq SW SQ HS M0) as (g0' & Z0 & I0 & J0).
  destruct (@eu_total_from f64 NumF mem m W Wq self H0 g0 H Hm I0 Hr) as (g & E & A). assert (HL : (0 + Z.of_nat (length H) <= 2 ^ 40)%Z) by lia.
  pose proof (@sim_eu_run mem (fun _ => NaN) H _ (moderate_sim M1) 0%Z g0 g0' (Z.le_refl 0) HL Z0) as G. destruct (res_ok G E) as (g' & E' & Zg). rewrite Z.add_0_l in Zg.
  exists g, g'. split; [exact E|]. split; [exact Zg|]. split; [|exact A]. rewrite map_app. eapply (@einv_run rnd64 rnd64_sane m W Wq self Hm HW (fun _ => NaN)); [exact J0|exact E'].
Qed.

(** C70. Diagonals of the Euclidean generator in double precision: finite numbers, at least 0, with the error of C65. *)
Theorem C70_diagonals : forall mem m W Wq self H0 g0 H, 0 < m -> m <= W -> 0 < Wq -> small_nat W -> small_nat Wq -> small_nat (length H + 1) ->
  eu64_start mem m W Wq self H0 g0 -> in_range self m W Wq (H0 ++ H) -> moderate_calls (H0 ++ H) ->
  exists g, @eu_calls f64 NumF mem g0 H = Ok g /\
    let S := map value (wS W (H0 ++ H)) in let Q := map value (wQ self W Wq (H0 ++ H)) in
    let u := bpow radix2 (-53) in let t := bpow radix2 (-1022) in
    forall d, has_diag m S Q d -> exists ds, @eu_calc_diagonal f64 NumF g d = Ok (g, ds) /\ Z.of_nat (length ds) = dlen (length Q + 1 - m) (length S + 1 - m) d /\
      let a := Z.to_nat (Z.max 0 (- d)) in let b := Z.to_nat (Z.max 0 d) in
      forall r, r < length ds -> exists f, nth_error ds r = Some (Fin f) /\ dbl f /\ (0 <= val f)%R /\
        let before := (sqd (sub (r + m) Q a) (sub (r + m) S b) + sqd (sub r Q a) (sub r S b))%R in
        let exact := euclid (sub m Q (a + r)) (sub m S (b + r)) in
        (Rabs (val f - exact) <= (1 + u) * sqrt (((1 + u) ^ (r + m + 4) - 1) * (before + INR (2 * r + m) * t)) + u * (exact + t))%R.
Proof.
  intros mem m W Wq self H0 g0 H Hm HW HWq SW SQ SH HS Hr HM. destruct (eu64_run H Hm HW HWq SW SQ SH HS Hr HM) as (g & g' & E & Zg & J & A1 & A2). exists g. split; [exact E|]. cbn zeta.
  intros d Hd. pose proof (einv_query J) as VQ. destruct J as (C & Em & _ & _ & VS & _). rewrite wS_val in VS. rewrite wQ_val in VQ.
  assert (Hu : (0 <= bpow radix2 (-53))%R) by apply bpow_ge_0. assert (Ht : (0 <= bpow radix2 (-1022) <= 1)%R) by (split; [apply bpow_ge_0|]; apply (bpow_le radix2 (-1022) 0); lia).
  destruct (@eu_diag_error rnd64 _ _ rnd64_sane Hu Ht rnd64_accurate g' m _ _ d Hm C Em VS VQ Hd) as (ds' & Ed' & L' & B).
  assert (Hd' : has_diag m (wS W (H0 ++ H)) (wQ self W Wq (H0 ++ H)) d) by (unfold has_diag in *; rewrite !map_length in Hd; exact Hd). destruct (A2 d Hd') as (g1 & ds & Ed & L).
  destruct (res_ok (@sim_eu_diag _ g g' d Zg) Ed) as ([g1' ds1'] & Ed1' & G1 & G2 & R). cbn [fst snd] in *. change (NR rnd64) with NB in Ed'. rewrite Ed' in Ed1'. injection Ed1' as <- <-. subst g1. exists ds. split; [exact Ed|]. split; [rewrite !map_length; exact L|].
  intros r Hrl. rewrite (all2_length R) in Hrl. destruct (B r Hrl) as (x & Ex & Hx & Bx). pose proof (@sim_nth _ _ _ _ _ r R) as N. rewrite Ex in N. destruct (nth_error ds r) as [y|]; [|contradiction]. destruct N as [(f & -> & Ef & D & _)|[_ N]]; [|discriminate].
  apply Fin_inj in Ef. subst x. exists f. split; [reflexivity|]. split; [exact D|]. split; [exact Hx|]. exact Bx.
Qed.
Print Assumptions C70_diagonals.

(** Columns: finite numbers, at least 0, or NaN; NaN only in columns that follow the last one (C66). *)
Theorem C66_binary64_partial : forall mem m W Wq self H0 g0 H, 0 < m -> m <= W -> 0 < Wq -> small_nat W -> small_nat Wq -> small_nat (length H + 1) ->
  eu64_start mem m W Wq self H0 g0 -> in_range self m W Wq (H0 ++ H) -> moderate_calls (H0 ++ H) ->
  exists g, @eu_calls f64 NumF mem g0 H = Ok g /\
    let S := wS W (H0 ++ H) in let Q := wQ self W Wq (H0 ++ H) in
    forall c, has_col m S Q c -> exists g' ds, @eu_calc_column f64 NumF mem g c = Ok (g', ds) /\ length ds = length Q + 1 - m /\
      Forall (fun x => a_distance64 x \/ x = NaN) ds /\ (calculated_fully (H0 ++ H) c -> Forall a_distance64 ds).
Proof.
  intros mem m W Wq self H0 g0 H Hm HW HWq SW SQ SH HS Hr HM. destruct (eu64_run H Hm HW HWq SW SQ SH HS Hr HM) as (g & g' & E & Zg & J & A1 & A2). exists g. split; [exact E|]. cbn zeta.
  intros c Hc. destruct (A1 c Hc) as (g1 & ds & Ec & L). exists g1, ds. split; [exact Ec|]. split; [exact L|]. unfold small_nat in SH. assert (HN : (Z.of_nat (length H) < 2 ^ 40)%Z) by lia.
  destruct (res_ok (@sim_eu_col _ mem (fun _ => NaN) g g' c (Zle_0_nat _) HN Zg) Ec) as ([g1' ds'] & Ec' & _ & R). cbn [snd] in R. destruct (@eu_col_fin rnd64 rnd64_sane (fun _ => NaN) g' c g1' ds' (proj1 J) Ec') as (_ & G1 & G2).
  split.
  - clear - R G1. induction R as [|x y l l' Hx _ IH]; constructor; inversion G1; subst; [|apply IH; assumption]. destruct Hx as [Hx|[-> _]]; [|right; reflexivity]. left. destruct H1 as [N|N]; [eapply rel_distance; eassumption|]. destruct Hx as (f & _ & Ey & _). congruence.
  - intro Hf. assert (N : Forall nonneg ds').
    { apply G2. eapply (einv_full Hm HW); [exact J|]. unfold calculated_fully, fixed_series in *. assert (In_val : forall c' H', In (CCol c') (map valc H') <-> In (CCol c') H').
      { intros c' H'. rewrite in_map_iff. split; [intros (o & Eo & Ho); destruct o; try discriminate; injection Eo as ->; exact Ho|intro Ho; exists (CCol c'); auto]. }
      destruct Hf as [Hf|[Hf|[Hf1 Hf2]]]; [left; exact Hf|right; left; intros c' Hc'; apply Hf, In_val, Hc'|right; right]. split; [|intro N; apply Hf2, In_val, N].
      intros K1 c0 K2 xs EK HK. apply map_eq_app in EK. destruct EK as (L1 & L2 & EH & <- & EL2). destruct L2 as [|o L2]; [discriminate|]. cbn in EL2. injection EL2 as Eo EL2. destruct o; try discriminate. injection Eo as ->. subst K2.
      apply in_map_iff in HK. destruct HK as (o & Eo & Ho). destruct o as [ys| | |]; try discriminate. eapply Hf1; [exact EH|exact Ho]. }
    clear - R N. induction R as [|x y l l' Hx _ IH]; constructor; inversion N; subst; [|apply IH; assumption]. destruct Hx as [Hx|[-> ->]]; [eapply rel_distance; eassumption|]. destruct H1 as (a & Ea & _). discriminate.
Qed.
Print Assumptions C66_binary64_partial.

(** ** Examples *)
Lemma moderate_int z : (Z.abs z <= 2 ^ 53)%Z -> moderate (F z).
Proof.
  intro H. assert (B : (Rabs (rnd64 (IZR z)) <= IZR (2 ^ 53) * bpow radix2 0)%R). { apply rnd64_le; [lia|lia|]. rewrite <- abs_IZR. cbn [bpow]. rewrite Rmult_1_r. apply IZR_le, H. }
  assert (B2 : (IZR (2 ^ 53) * bpow radix2 0 <= bpow radix2 200)%R). { cbn [bpow]. rewrite Rmult_1_r. apply (bpow_le radix2 53 200). lia. }
  destruct (@f64_ofZ z) as [D V]. { unfold small. eapply Rle_lt_trans; [exact B|]. eapply Rle_lt_trans; [exact B2|]. apply bpow_lt. reflexivity. }
  exists (nofZ z). split; [reflexivity|]. split; [exact D|]. rewrite V. lra.
Qed.
Ltac ints := intros x Hx; cbn in Hx; repeat (destruct Hx as [<-|Hx]; [apply moderate_int; cbn; lia|]); destruct Hx.
Example C69_example : exists g0 g x, zn64_start (fun _ => NaN) (fun _ => false) (F 0) 2 5 3 false [] g0 /\ moderate_calls xz /\
  zn_calls (fun _ => NaN) g0 xz = Ok g /\ zn_calc_single g 1 3 None = Ok x /\ fltb (F 2) x = true /\ a_distance64 x.
Proof.
  assert (M : moderate_calls xz) by (split; ints). assert (HE : exists g0 g x, zn_prepare_streaming (fun _ => NaN) (fun _ => false) (F 0) 2 2 5 (Some 3) = Ok g0 /\ zn_calls (fun _ => NaN) g0 xz = Ok g /\ zn_calc_single g 1 3 None = Ok x /\ fltb (F 2) x = true).
  { do 3 eexists. repeat (split; [vm_compute; reflexivity|]). reflexivity. }
  destruct HE as (g0 & g & x & E0 & E & Ex & B). exists g0, g, x. assert (S0 : zn64_start (fun _ => NaN) (fun _ => false) (F 0) 2 5 3 false [] g0) by (eapply zn64_streaming with (sf := 2%Q); [discriminate|discriminate|exact E0]).
  repeat (split; [assumption|]). edestruct (@C69_numbers (fun _ => NaN) (fun _ => false) (F 0) 2 5 3 false [] g0 xz) as (g1 & E1 & _ & _ & G); try exact S0; try exact M; try (unfold small_nat; cbn; lia); [apply moderate_int; cbn; lia| |].
  - intros H1 o H2 EH. unfold xz in EH.
    do 9 (destruct H1 as [|o1 H1]; cbn [app] in EH; [injection EH as <- _; cbn; unfold has_col, has_diag; try (exists 0, 2); cbn; auto; try lia|]; injection EH as <- EH).
    destruct H1; discriminate EH.
  - rewrite E in E1. injection E1 as <-. destruct (G 1 3) as (x1 & Ex1 & D); [cbn; lia|cbn; lia|]. rewrite Ex in Ex1. injection Ex1 as <-. exact D.
Qed.
Definition bs : list (num f64) := [F 0; F 3; F 4; F 1].
Definition bq : list (num f64) := [F 0; F 0; F 4].
Example C70_example : exists g0 g ds, eu64_start (fun _ => NaN) 2 4 3 false (loaded bs (Some bq)) g0 /\ eu_calls (fun _ => NaN) g0 [CCol 0; CDiag 1] = Ok g /\
  eu_calc_diagonal g 1 = Ok (g, ds) /\ nth_error ds 1 = Some (F 5) /\ length ds = 2 /\ Forall a_distance64 ds.
Proof.
  assert (HE : exists g0 g ds, eu_prepare (fun _ => NaN) 2 2 bs (Some bq) = Ok g0 /\ eu_calls (fun _ => NaN) g0 [CCol 0; CDiag 1] = Ok g /\ eu_calc_diagonal g 1 = Ok (g, ds) /\ nth_error ds 1 = Some (F 5) /\ length ds = 2).
  { do 3 eexists. repeat (split; [vm_compute; reflexivity|]). reflexivity. }
  destruct HE as (g0 & g & ds & E0 & E & Ed & N & L). exists g0, g, ds. assert (S0 : eu64_start (fun _ => NaN) 2 4 3 false (loaded bs (Some bq)) g0) by (eapply eu64_batched with (sf := 2%Q); [reflexivity|reflexivity|reflexivity|exact E0]).
  repeat (split; [assumption|]). edestruct (@C70_diagonals (fun _ => NaN) 2 4 3 false (loaded bs (Some bq)) g0 [CCol 0; CDiag 1]) as (g1 & E1 & G); try exact S0; try (unfold small_nat; cbn; lia); [|split; ints|].
  - intros H1 o H2 EH. do 4 (destruct H1 as [|o1 H1]; cbn [app loaded] in EH; [injection EH as <- _; cbn; unfold has_col, has_diag; try (exists 0, 1); cbn; auto; try lia|]; injection EH as <- EH). destruct H1; discriminate EH.
  - rewrite E in E1. injection E1 as <-. destruct (G 1%Z) as (ds1 & Ed1 & _ & B); [exists 0, 1; cbn; lia|]. rewrite Ed in Ed1. injection Ed1 as <-. apply Forall_forall. intros x Hx. apply In_nth_error in Hx. destruct Hx as (r & Er).
    destruct (B r) as (f & Ef & D & P & _); [apply nth_error_Some; congruence|]. rewrite Er in Ef. injection Ef as ->. exists f. auto.
Qed.

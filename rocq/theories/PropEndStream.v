(** * PropEndStream: complete programs that calculate a matrix profile of a stream *)
From Coq Require Import QArith Reals Lra Sorted.
From Verif Require Import Np NpFacts Inst Mat SLog MProfile MEuclid MZnorm MFilter MCalc SReal SCalc SStream PStream SMixed SGen SFilter SEnd SEndStream PArith PCalcEnd PEndStream PEuclid PZgeo PZnorm PFilter PFilterReal PropCalc PropZnorm PropFilter PropEnd.
Set Implicit Arguments.
Open Scope nat_scope.

Section Instances.
  Variables (set_order : list nat -> list nat) (memn : nat -> num R) (memz : nat -> Z) (sfc : Q).
  Definition zn_stream_program (mem : nat -> num R) (memb : nat -> bool) (noise : R) (sf : Q) :=
    stream_program (zn_calc_column mem) (@zn_append_series R NumR) (@zn_append_query R NumR)
      (fun m W qw => zn_prepare_streaming mem memb (Fin noise) sf (Z.to_nat m) (Z.to_nat W) (option_map Z.to_nat qw)) set_order memn memz sfc.
  (** FilterGenerator(ZNormEuclidean(...)) with the default validity function *)
  Definition zn_filter_stream_program (mem : nat -> num R) (memb memb' : nat -> bool) (noise : R) (sf sf' : Q) :=
    stream_program (fs_calc_column (zn_calc_column mem)) (fs_append_series (@zn_append_series R NumR) (@is_not_finite R)) (fs_append_query (@zn_append_query R NumR) (@is_not_finite R))
      (fun m W qw => fs_prepare memb' (zn_prepare_streaming mem memb (Fin noise) sf) sf' (Z.to_nat m) (Z.to_nat W) (option_map Z.to_nat qw)) set_order memn memz sfc.
End Instances.

Definition all_finite (xs : list (num R)) : Prop := forallb finite xs = true.
Definition not_empty (xs : list (num R)) : Prop := xs <> [].

Lemma wS_vals W (H : list (gcall (num R))) : wS W (map vals H) = map val (wS W H).
Proof.
  unfold wS. rewrite <- lastn_map. f_equal. unfold s_points. induction H as [|o H IH]; [reflexivity|]. cbn [map flat_map]. rewrite map_app, IH. destruct o; reflexivity.
Qed.
Lemma wQ_vals self W Wq (H : list (gcall (num R))) : wQ self W Wq (map vals H) = map val (wQ self W Wq H).
Proof.
  unfold wQ. destruct self; [apply wS_vals|]. rewrite <- lastn_map. f_equal. unfold q_points. induction H as [|o H IH]; [reflexivity|]. cbn [map flat_map]. rewrite map_app, IH. destruct o; reflexivity.
Qed.
Lemma in_range_vals self m W Wq H : in_range self m W Wq H -> in_range self m W Wq (map vals H).
Proof.
  intros Hr H1 o H2 E. apply map_eq_app in E. destruct E as (K1 & K2 & EK & <- & E2). destruct K2 as [|k K2]; [discriminate|]. injection E2 as <- <-. specialize (Hr K1 k K2 EK).
  destruct k; cbn [vals]; rewrite ?wS_vals, ?wQ_vals; auto.
  - unfold has_col in *. rewrite !map_length. exact Hr.
  - eapply has_diag_length; [..|exact Hr]; rewrite map_length; reflexivity.
Qed.
Lemma cols_asked_vals W H : forall n, cols_asked W n (map vals H) = cols_asked W n H.
Proof. induction H as [|o H IH]; intro n; [reflexivity|]. destruct o; cbn [map vals cols_asked]; rewrite ?map_length, IH; reflexivity. Qed.
Lemma trusted_vals self W H : trusted self W H -> trusted self W (map vals H).
Proof.
  intros [Ht|[Ht|Ht]]; [left; exact Ht| |right; right; rewrite cols_asked_vals; exact Ht]. right. left. intros H1 xs H2 E. apply map_eq_app in E. destruct E as (K1 & K2 & EK & <- & E2).
  destruct K2 as [|k K2]; [discriminate|]. destruct k; try discriminate. injection E2 as <- <-. rewrite wS_vals, !map_length. destruct (Ht K1 xs0 K2 EK) as [H0|H0]; [left|right; exact H0].
  rewrite <- H0. clear. induction K1 as [|o K IH]; [reflexivity|]. cbn [map existsb]. rewrite IH. destruct o; reflexivity.
Qed.
Lemma finc_vals H : valid_calls all_finite H -> map finc (map vals H) = H.
Proof.
  intro Hv. rewrite map_map. rewrite <- (map_id H) at 2. apply map_ext_in. intros o Ho. specialize (Hv o Ho).
  assert (F : forall xs, all_finite xs -> fin (map val xs) = xs).
  { intros xs Hf. induction xs as [|x xs IH]; [reflexivity|]. cbn in Hf |- *. apply andb_true_iff in Hf. destruct Hf as [H1 H2]. rewrite (IH H2). destruct x; try discriminate. reflexivity. }
  destruct o; cbn [vals finc]; rewrite ?F by exact Hv; reflexivity.
Qed.

Definition entry_of (dist : list R -> list R -> R) (x y : list (num R)) : num R := Fin (dist (map val x) (map val y)).

(** A generator for real data whose answers are the distances *)
Lemma real_answers G (g_col : G -> nat -> res (G * list (num R))) g_diag g_s g_q (dist : list R -> list R -> R) (valid : list (num R) -> Prop) self m W Wq g0 :
  (forall xs, valid xs -> all_finite xs) ->
  (forall H, in_range self m W Wq H -> trusted self W H -> valid_calls valid (map finc H) -> exists g, grun g_col g_diag g_s g_q g0 (map finc H) = Ok g /\
     forall c, has_col m (wS W H) (wQ self W Wq H) c -> trusted self W (H ++ [CCol c]) -> exists g', g_col g c = Ok (g', col_dist dist m (wS W H) (wQ self W Wq H) c)) ->
  answers g_col g_diag g_s g_q (entry_of dist) self m W Wq valid g0.
Proof.
  intros HV HA H Hr Ht Hv. assert (Hf : valid_calls all_finite H).
  { intros o Ho. specialize (Hv o Ho). destruct o; auto. }
  destruct (HA (map vals H) (in_range_vals Hr) (trusted_vals Ht)) as (g & Eg & HC); [rewrite (finc_vals Hf); exact Hv|]. exists g. rewrite (finc_vals Hf) in Eg. split; [exact Eg|].
  intros c Hc Htc. destruct (HC c) as (g' & Ec).
  - rewrite wS_vals, wQ_vals. unfold has_col in *. rewrite !map_length. exact Hc.
  - replace (map vals H ++ [CCol c]) with (map vals (H ++ [CCol c])) by (rewrite map_app; reflexivity). apply trusted_vals, Htc.
  - exists g'. rewrite Ec. f_equal. f_equal. unfold col_dist. rewrite wS_vals, wQ_vals, map_length. apply map_ext. intro r. unfold entry_of. rewrite !sub_map. reflexivity.
Qed.

(** The profile, with the distances of the complete streams *)
Definition profile_of_streams {X} (E : list X -> list X -> num R) (self : bool) (m W Wq dim : nat) (b : Z) (p : progress X) (res : list (num R) * list Z) : Prop :=
  let TS := stream_of dim (p_hist p) in let TQ := if self then TS else query_stream dim (p_hist p) in
  window_profile (fun r a => E (sub m TQ r) (sub m TS a)) (lost W (p_s p)) (W + 1 - m) (seen b (calculated self m W Wq 0 0 (p_hist p))) res.
(** ** C59. The whole streaming program with ZNormEuclidean: any history of appends of finite data and calculations *)
Theorem C59_stream : forall set_order memn memz sfc mem memb noise sf m W qw ndim buffer dim ops p evs,
  let self := is_self qw in let Wq := match qw with Some q => q | None => W end in let b := buffer_used qw (Z.of_nat m) buffer in
  orders_sets set_order -> (1 <= sfc)%Q -> (sfc <= 2)%Q -> (1 <= sf)%Q -> (sf <= 2)%Q -> (0 <= noise)%R ->
  1 <= m <= W -> m <= Wq -> dim < ndim -> (-1 <= b < Z.of_nat (W + 1 - m))%Z ->
  history self m W Wq ndim b (fun _ => dim) all_finite (fun _ => window_column (entry_of (zdist noise)) self m W Wq) ops p evs ->
  exists res, zn_stream_program set_order memn memz sfc mem memb noise sf (Z.of_nat m) (Z.of_nat W) (option_map Z.of_nat qw) ndim buffer (Z.of_nat dim) ops = Ok res /\
    profile_of_streams (entry_of (zdist noise)) self m W Wq dim b p res.
Proof.
  intros set_order memn memz sfc mem memb noise sf m W qw ndim buffer dim ops p evs self Wq b HSO Hc1 Hc2 Hs1 Hs2 Hn Hm HmQ Hdim Hb Hh.
  destruct (@zn_stream_all mem memb noise sf m W Wq self) as (g0 & E0 & HA); auto; try lia.
  destruct (@stream_program_lemma R NumR OrdR (num R) _ (zn_calc_column mem) (@zn_calc_diagonal R NumR) (@zn_append_series R NumR) (@zn_append_query R NumR)
    (fun m W qw => zn_prepare_streaming mem memb (Fin noise) sf (Z.to_nat m) (Z.to_nat W) (option_map Z.to_nat qw)) set_order memn memz sfc HSO (entry_of (zdist noise)) all_finite g0 m W qw ndim buffer dim ops p evs) as (res & Er & HP); auto.
  - rewrite <- E0, !Nat2Z.id. subst self Wq. destruct qw; cbn [option_map is_self]; rewrite ?Nat2Z.id; reflexivity.
  - fold self Wq. apply real_answers; [auto|]. intros H Hr Ht _. destruct (HA H Hr Ht) as (g & Eg & _ & HC). exists g. split; [exact Eg|exact HC].
  - exists res. split; [exact Er|]. exact HP.
Qed.
Print Assumptions C59_stream.

(** Data with NaN and infinities, behind the filter: subsequences with such points do not match *)
Theorem C59_nonfinite : forall set_order memn memz sfc mem memb memb' noise sf sf' m W qw ndim buffer dim ops p evs,
  let self := is_self qw in let Wq := match qw with Some q => q | None => W end in let b := buffer_used qw (Z.of_nat m) buffer in
  orders_sets set_order -> (1 <= sfc)%Q -> (sfc <= 2)%Q -> (1 <= sf)%Q -> (sf <= 2)%Q -> (1 <= sf')%Q -> (sf' <= 2)%Q -> (0 <= noise)%R ->
  1 <= m <= W -> m <= Wq -> dim < ndim -> (-1 <= b < Z.of_nat (W + 1 - m))%Z ->
  history self m W Wq ndim b (fun _ => dim) not_empty (fun _ => window_column (dist_or_inf (zdist noise)) self m W Wq) ops p evs ->
  exists res, zn_filter_stream_program set_order memn memz sfc mem memb memb' noise sf sf' (Z.of_nat m) (Z.of_nat W) (option_map Z.of_nat qw) ndim buffer (Z.of_nat dim) ops = Ok res /\
    profile_of_streams (dist_or_inf (zdist noise)) self m W Wq dim b p res.
Proof.
  intros set_order memn memz sfc mem memb memb' noise sf sf' m W qw ndim buffer dim ops p evs self Wq b HSO Hc1 Hc2 Hs1 Hs2 Hs3 Hs4 Hn Hm HmQ Hdim Hb Hh.
  destruct (@C24_nonfinite_znorm_partial mem memb memb' noise sf sf' m W Wq self) as (f0 & E0 & HA); auto; try lia.
  destruct (@stream_program_lemma R NumR OrdR (num R) _ (fs_calc_column (zn_calc_column mem)) (fs_calc_diagonal (@zn_calc_diagonal R NumR)) (fs_append_series (@zn_append_series R NumR) (@is_not_finite R)) (fs_append_query (@zn_append_query R NumR) (@is_not_finite R))
    (fun m W qw => fs_prepare memb' (zn_prepare_streaming mem memb (Fin noise) sf) sf' (Z.to_nat m) (Z.to_nat W) (option_map Z.to_nat qw)) set_order memn memz sfc HSO (dist_or_inf (zdist noise)) not_empty f0 m W qw ndim buffer dim ops p evs) as (res & Er & HP); auto.
  - rewrite <- E0, !Nat2Z.id. subst self Wq. destruct qw; cbn [option_map is_self]; rewrite ?Nat2Z.id; reflexivity.
  - fold self Wq. intros H Hr Ht Hv. destruct (HA H Hr Ht Hv) as (f & Ef & _ & HC). exists f. split; [exact Ef|exact HC].
  - intros x y _ _. unfold dist_or_inf. destruct (_ && _); reflexivity.
  - exists res. split; [exact Er|]. exact HP.
Qed.
Print Assumptions C59_nonfinite.

(** ** With Euclidean: data that are multiples of a quantum [u], not too small *)
Definition on_grid (u : R) (xs : list (num R)) : Prop := forall x, In x xs -> exists z, x = Fin (IZR z * u)%R.
Lemma grid_finite u xs : on_grid u xs -> all_finite xs.
Proof. intro H. unfold all_finite. apply forallb_forall. intros x Hx. destruct (H x Hx) as (z & ->). reflexivity. Qed.
Lemma grid_sqd u x y : (forall v, In v x -> exists z, v = (IZR z * u)%R) -> (forall v, In v y -> exists z, v = (IZR z * u)%R) -> exists k, (0 <= k)%Z /\ sqd x y = (IZR k * (u * u))%R.
Proof.
  unfold sqd, psum. revert y. induction x as [|a x IH]; intros y Hx Hy; [exists 0%Z; split; [lia|]; cbn; lra|]. destruct y as [|b y]; [exists 0%Z; split; [lia|]; cbn; lra|].
  destruct (IH y) as (k & Hk & E); [intros; apply Hx; right; assumption|intros; apply Hy; right; assumption|]. destruct (Hx a) as (z1 & ->); [left; reflexivity|]. destruct (Hy b) as (z2 & ->); [left; reflexivity|].
  exists ((z1 - z2) * (z1 - z2) + k)%Z. split; [pose proof (Z.square_nonneg (z1 - z2)); lia|]. cbn [zip_with rsum fold_right]. unfold rsum in E. rewrite E, plus_IZR, mult_IZR, minus_IZR. ring.
Qed.
Lemma grid_separated u m S Q : (/ 10 ^ 15 <= u * u)%R -> (forall v, In v S -> exists z, v = (IZR z * u)%R) -> (forall v, In v Q -> exists z, v = (IZR z * u)%R) -> separated m S Q.
Proof.
  intros Hu HS HQ i j Hi Hj [H1 H2]. assert (SUB : forall (l : list R) k v, In v (sub m l k) -> In v l).
  { intros l k v Hv. unfold sub in Hv. rewrite <- (firstn_skipn k l). apply in_or_app. right. rewrite <- (firstn_skipn m (skipn k l)). apply in_or_app. left. exact Hv. }
  destruct (@grid_sqd u (sub m Q i) (sub m S j)) as (k & Hk & E); [intros v Hv; apply HQ; eapply SUB; exact Hv|intros v Hv; apply HS; eapply SUB; exact Hv|].
  rewrite E in *. destruct (Z.eq_dec k 0) as [->|Hk0]; [lra|]. assert (1 <= IZR k)%R by (apply IZR_le; lia). nra.
Qed.

Lemma eu_stream_all mem sf u m W Wq (self : bool) : 0 < m -> m <= W -> (self = false -> 0 < Wq) -> (1 <= sf)%Q -> (sf <= 2)%Q -> (/ 10 ^ 15 <= u * u)%R ->
  exists g0, eu_prepare_streaming mem sf m W (if self then None else Some Wq) = Ok g0 /\
  forall H, in_range self m W Wq H -> trusted self W H -> valid_calls (on_grid u) (map finc H) ->
  exists g, grun (eu_calc_column mem) (@eu_calc_diagonal R NumR) (@eu_append_series R) (@eu_append_query R) g0 (map finc H) = Ok g /\
    forall c, has_col m (wS W H) (wQ self W Wq H) c -> trusted self W (H ++ [CCol c]) -> exists g', eu_calc_column mem g c = Ok (g', col_dist euclid m (wS W H) (wQ self W Wq H) c).
Proof.
  intros Hm HW HWq H1 H2 Hu. destruct (@eu_streaming_state mem m W Wq self Hm E0 sf H1 H2 HW HWq) as (g0 & Eg0 & I0). exists g0. split; [exact Eg0|]. intros H Hr Ht Hv.
  assert (SEP : forall H1 H2, H = H1 ++ H2 -> separated m (wS W H1) (wQ self W Wq H1)).
  { intros K1 K2 EK. assert (PT : forall o v, In o H -> match o with CSeries xs | CQuery xs => In v xs | _ => False end -> exists z, v = (IZR z * u)%R).
    { intros o v Ho Hvo. specialize (Hv (finc o) (in_map finc H o Ho)). destruct o; try contradiction; cbn [finc] in Hv; destruct (Hv (Fin v) (in_map (@Fin R) _ _ Hvo)) as (z & Ez); injection Ez as ->; eauto. }
    assert (PS : forall v, In v (s_points K1) -> exists z, v = (IZR z * u)%R).
    { intros v Hvs. apply in_flat_map in Hvs. destruct Hvs as (o & Ho & Hvo). apply (PT o); [rewrite EK; apply in_or_app; left; exact Ho|]. destruct o; solve [exact Hvo|destruct Hvo]. }
    assert (PQ : forall v, In v (q_points K1) -> exists z, v = (IZR z * u)%R).
    { intros v Hvs. apply in_flat_map in Hvs. destruct Hvs as (o & Ho & Hvo). apply (PT o); [rewrite EK; apply in_or_app; left; exact Ho|]. destruct o; solve [exact Hvo|destruct Hvo]. }
    assert (LN : forall (l : list R) n v, In v (lastn n l) -> In v l) by (intros l n v Hl; unfold lastn in Hl; rewrite <- (firstn_skipn (length l - n) l); apply in_or_app; right; exact Hl).
    assert (WS : forall v, In v (wS W K1) -> exists z, v = (IZR z * u)%R) by (intros v Hvw; apply PS; eapply LN; exact Hvw).
    apply grid_separated with (u := u); [exact Hu|exact WS|]. unfold wQ. destruct self; [exact WS|]. intros v Hvw. apply PQ. eapply LN; exact Hvw. }
  destruct (@eu_from mem m W Wq self Hm E0 okp0 okE0 okp0_sym [] g0 H I0 Hr Ht) as (g & Eg & _).
  { intros K1 c K2 EK. apply okall_separated. apply (SEP K1 (CCol c :: K2) EK). }
  exists g. split; [exact Eg|]. intros c Hc Htc.
  destruct (@eu_column mem m W Wq self Hm E0 okp0 okE0 okp0_sym [] g0 H c I0) as (g1 & g' & vs & Eg1 & Ec & N).
  - apply in_range_snoc; assumption.
  - exact Htc.
  - intros K1 c' K2 EK. apply okall_separated. cbn [app]. destruct K2 as [|k K2].
    + apply app_inj_tail in EK. destruct EK as [<- _]. apply (SEP H []). rewrite app_nil_r. reflexivity.
    + destruct (exists_last (l := k :: K2)) as (K2' & z & Ez); [discriminate|]. rewrite Ez, app_comm_cons, app_assoc in EK. apply app_inj_tail in EK. destruct EK as [EK _]. apply (SEP _ _ EK).
  - fold (@eu_run mem) in Eg, Eg1. rewrite Eg in Eg1. injection Eg1 as <-. exists g'. rewrite Ec. cbn [app] in N. rewrite (@near_exact E0 m (wS W H) (wQ self W Wq H) c vs (fun e H => H) N). reflexivity.
Qed.

Definition eu_stream_program (set_order : list nat -> list nat) memn memz sfc (mem : nat -> num R) (sf : Q) :=
  stream_program (eu_calc_column mem) (@eu_append_series R) (@eu_append_query R)
    (fun m W qw => eu_prepare_streaming mem sf (Z.to_nat m) (Z.to_nat W) (option_map Z.to_nat qw)) set_order memn memz sfc.
Theorem C59_euclid : forall set_order memn memz sfc mem sf u m W qw ndim buffer dim ops p evs,
  let self := is_self qw in let Wq := match qw with Some q => q | None => W end in let b := buffer_used qw (Z.of_nat m) buffer in
  orders_sets set_order -> (1 <= sfc)%Q -> (sfc <= 2)%Q -> (1 <= sf)%Q -> (sf <= 2)%Q -> (/ 10 ^ 15 <= u * u)%R ->
  1 <= m <= W -> m <= Wq -> dim < ndim -> (-1 <= b < Z.of_nat (W + 1 - m))%Z ->
  history self m W Wq ndim b (fun _ => dim) (on_grid u) (fun _ => window_column (entry_of euclid) self m W Wq) ops p evs ->
  exists res, eu_stream_program set_order memn memz sfc mem sf (Z.of_nat m) (Z.of_nat W) (option_map Z.of_nat qw) ndim buffer (Z.of_nat dim) ops = Ok res /\
    profile_of_streams (entry_of euclid) self m W Wq dim b p res.
Proof.
  intros set_order memn memz sfc mem sf u m W qw ndim buffer dim ops p evs self Wq b HSO Hc1 Hc2 Hs1 Hs2 Hu Hm HmQ Hdim Hb Hh.
  destruct (@eu_stream_all mem sf u m W Wq self) as (g0 & E0 & HA); auto; try lia.
  destruct (@stream_program_lemma R NumR OrdR (num R) _ (eu_calc_column mem) (@eu_calc_diagonal R NumR) (@eu_append_series R) (@eu_append_query R)
    (fun m W qw => eu_prepare_streaming mem sf (Z.to_nat m) (Z.to_nat W) (option_map Z.to_nat qw)) set_order memn memz sfc HSO (entry_of euclid) (on_grid u) g0 m W qw ndim buffer dim ops p evs) as (res & Er & HP); auto.
  - rewrite <- E0, !Nat2Z.id. subst self Wq. destruct qw; cbn [option_map is_self]; rewrite ?Nat2Z.id; reflexivity.
  - fold self Wq. apply real_answers; [intros xs; apply grid_finite|]. exact HA.
  - exists res. split; [exact Er|]. exact HP.
Qed.
Print Assumptions C59_euclid.

(** After an uninterrupted calculate_columns(), every column of the window was calculated (with the rows that were there at that
    time). *)
Theorem C59_all_columns : forall A X self m W Wq ndim tmb dim valid (F : nat -> list (gop X) -> nat -> list (Np.num A)) ops p evs,
  0 < ndim -> 1 <= m <= W -> history self m W Wq ndim tmb dim valid F (ops ++ [OCols never (RFloat (Fin 1%Q))]) p evs ->
  forall j, j < subseqs m W (p_s p) -> exists lo n, In (lost W (p_s p) + j, lo, n) (calculated self m W Wq 0 0 (p_hist p)).
Proof.
  intros A X self m W Wq ndim tmb dim valid F ops p evs Hnd Hm Hh j Hj. destruct (history_calculated Hnd Hh) as (_ & _ & HC). apply HC. split; [lia|].
  inversion Hh as [E|ops' op p0 p' evs0 evs' H0 Hd E]; [destruct ops; discriminate|]. apply app_inj_tail in E. destruct E as [-> ->]. pose proof (history_full Hm H0 Hd). lia.
Qed.
Print Assumptions C59_all_columns.

(** ** Examples *)
Definition stream_Z := stream_program (eu_calc_column (fun _ => NaN)) (@eu_append_series Z) (@eu_append_query Z)
  (fun m W qw => eu_prepare_streaming (fun _ => NaN) 2 (Z.to_nat m) (Z.to_nat W) (option_map Z.to_nat qw)) quick (fun _ => NaN) (fun _ => 77%Z) 2.
(** The window of 4 points loses 2 points; an interrupted calculation *)
Definition ops_Z : list (sop (num Z)) :=
  [OSeries (Pts [zs [0; 3; 0]; zs [4; 0; 3]]); OCols never (RFloat (Fin 1%Q)); OSeries (Pts [zs [9; 9]; zs [0; 4]]); OCols (fun k => (k =? 1)%nat) (RFloat (Fin 1%Q));
   OSeries (Pt (zs [1; 0])); OCols never (RFloat (Fin 1%Q))]%Z.
Example C59_example_self : stream_Z 2 4 None 2 (Some 0%Z) 1 ops_Z = Ok ([Fin 4; Fin 5; Fin 1]%Z, [1; 4; 2]%Z).
Proof. vm_compute. reflexivity. Qed.
Example C59_example_join : stream_Z 2 4 (Some 3%Z) 2 (Some 0%Z) 1
  [OSeries (Pts [zs [0; 3; 0]; zs [4; 0; 3]]); OQuery (Pts [zs [0; 3; 0]; zs [4; 0; 3]]); OCols never (RFloat (Fin 1%Q)); OSeries (Pts [zs [9; 9]; zs [0; 4]]);
   OQuery (Pt (zs [1; 0])); OCols (fun k => (k =? 1)%nat) (RFloat (Fin 1%Q)); OSeries (Pt (zs [1; 0])); OCols never (RFloat (Fin 1%Q))]%Z =
  Ok ([Fin 0; Fin 1; Fin 1]%Z, [2; 1; 2]%Z).
Proof. vm_compute. reflexivity. Qed.

(** A history that the theorems are about, and what it calculates: column 0 with rows 0 and 1, then columns 1 to 3 with rows 1 to 3 *)
Definition ops_R : list (sop (num R)) :=
  [OSeries (Pts [fin [4; 0; 3]%R]); OCols (fun k => (k =? 1)%nat) (RFloat (Fin 1%Q)); OSeries (Pts [fin [0; 4]%R]); OCols never (RFloat (Fin 1%Q))].
Example C59_example_history : exists p evs,
  history true 2 4 4 1 0 (fun _ => 0) (on_grid 1) (fun _ => window_column (entry_of euclid) true 2 4 4) ops_R p evs /\
  p_s p = 5 /\ calculated true 2 4 4 0 0 (p_hist p) = [(0, 0, 2); (1, 1, 3); (2, 1, 3); (3, 1, 3)].
Proof.
  assert (V : forall l : list Z, on_grid 1 (fin (map IZR l))).
  { intros l x Hx. apply in_map_iff in Hx. destruct Hx as (y & <- & Hy). apply in_map_iff in Hy. destruct Hy as (z & <- & _). exists z. rewrite Rmult_1_r. reflexivity. }
  eexists _, _. split.
  - eapply (history_snoc (ops := [OSeries (Pts [fin [4; 0; 3]%R]); OCols (fun k => (k =? 1)%nat) (RFloat (Fin 1%Q)); OSeries (Pts [fin [0; 4]%R])])).
    + eapply (history_snoc (ops := [OSeries (Pts [fin [4; 0; 3]%R]); OCols (fun k => (k =? 1)%nat) (RFloat (Fin 1%Q))])).
      * eapply (history_snoc (ops := [OSeries (Pts [fin [4; 0; 3]%R])])).
        -- eapply (history_snoc (ops := [])); [constructor|]. eapply does_series with (rows := [fin [4; 0; 3]%R]) (n := 3); [split; [reflexivity|]; split; [intros r [<-|[]]; reflexivity|reflexivity]|]. intros r [<-|[]]. exact (V [4; 0; 3]%Z).
        -- eapply does_cols with (u := 2) (n := 1); [apply PCalc.resolves_ok; [lia|reflexivity]|split; [cbn; lia|]; split; [intros i Hi; destruct i; [reflexivity|lia]|reflexivity]|cbn; lia].
      * eapply does_series with (rows := [fin [0; 4]%R]) (n := 2); [split; [reflexivity|]; split; [intros r [<-|[]]; reflexivity|reflexivity]|]. intros r [<-|[]]. exact (V [0; 4]%Z).
    + eapply does_cols with (u := 3) (n := 3); [apply PCalc.resolves_ok; [lia|reflexivity]|apply PCalc.runs_never_iff; reflexivity|cbn; lia].
  - split; reflexivity.
Qed.

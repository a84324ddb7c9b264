(** * PropRejectFixed: rejected series appends in a join with a query of finite points (C107) *)
From Coq Require Import QArith Reals Lra.
From Verif Require Import Np NpFacts Inst MRing PRing MUtil MArith MStats MCache MZnorm MRejected SReal SCalc SGen PArith PStats PCache PGenRun PZnorm PZdist PRejected SRejectJoin PRejectJoin PRejectFixed PropZnorm PropReject.
Set Implicit Arguments.
Open Scope nat_scope.

Lemma zn_start_fixed mem memb noise sf m W Wq : 0 < m -> m <= W -> m <= Wq -> (1 <= sf)%Q -> (sf <= 2)%Q -> (0 <= noise)%R ->
  exists g0, zn_prepare_streaming mem memb (Fin noise) sf m W (Some Wq) = Ok g0 /\ zfix noise m W Wq [] [] g0.
Proof.
  intros Hm HW HWq S1 S2 Hn. destruct (@zn_streaming_state mem memb noise m W Wq false Hm ltac:(intros _; exact HWq) sf Hn S1 S2 HW) as (g0 & E0 & I0).
  exists g0. split; [exact E0|]. unfold state_after in I0. cbn zeta in I0. destruct I0 as [I1 I2 (I3 & I4 & I5) I6].
  assert (F : ch_first (zn_c g0) = None).
  { unfold zn_prepare_streaming in E0. apply bind_ok in E0 as (? & _ & E0). unfold zn_empty in E0. do 4 (apply bind_ok in E0 as (? & _ & E0)). injection E0 as <-. reflexivity. }
  constructor; auto; [apply (ci_m I1)|apply (ci_self I1)| |apply (ci_q I1)| |].
  - split; [apply (ci_s I1)|]. eauto 7.
  - rewrite F. discriminate.
  - intros p E. rewrite (ci_used I1) in E by reflexivity. discriminate.
Qed.

(** ** C107. A join whose query received finite points only (for instance a query given once), after any calls with the exceptions of appends caught:
    once two windows of series points were accepted, everything that is calculated then and later is right, the cached first row and the cached
    column included.  No query point need be appended. *)
Theorem C107_fixed : forall mem memb noise sf m W Wq H Q chunks H2 g0 g1 g, 0 < m -> m <= W -> m <= Wq -> (1 <= sf)%Q -> (sf <= 2)%Q -> (0 <= noise)%R ->
  zn_prepare_streaming mem memb (Fin noise) sf m W (Some Wq) = Ok g0 -> foldM (zn_caught mem) H g0 = Ok g1 -> q_points H = fin Q ->
  foldM (@zn_append_series R NumR) (map (map (@Fin R)) chunks) g1 = Ok g -> 2 * W <= length (concat chunks) ->
  let K := [CSeries (concat chunks); CQuery Q] ++ H2 in
  in_range false m W Wq K -> trusted false W K ->
  exists g2, zn_run mem g (map finc H2) = Ok g2 /\
    (forall d, has_diag m (wS W K) (wQ false W Wq K) d -> zn_calc_diagonal g2 d = Ok (g2, diag_dist (zdist noise) m (wS W K) (wQ false W Wq K) d)) /\
    (forall c, has_col m (wS W K) (wQ false W Wq K) c -> trusted false W (K ++ [CCol c]) ->
       exists g', zn_calc_column mem g2 c = Ok (g', col_dist (zdist noise) m (wS W K) (wQ false W Wq K) c)) /\
    (forall r c, r + m <= length (wQ false W Wq K) -> c + m <= length (wS W K) ->
       zn_calc_single g2 r c None = Ok (Fin (zdist noise (sub m (wQ false W Wq K) r) (sub m (wS W K) c)))).
Proof.
  intros mem memb noise sf m W Wq H Q chunks H2 g0 g1 g Hm HW HWq S1 S2 Hn E0 E1 Eq E2 L K Hr Ht.
  destruct (zn_start_fixed mem memb Hm HW HWq S1 S2 Hn) as (g0' & E0' & I0). assert (g0' = g0) as -> by congruence.
  pose proof (@zfix_run mem noise m W Wq H Hm HW HWq [] [] Q g0 g1 I0 Eq E1) as I. cbn [app] in I.
  pose proof (win_len (proj1 (zf_s I))) as L0.
  apply (zfmend_start Hm) in I. apply (zfmend_appends chunks Hm HW L0 I) in E2. cbn [app] in E2.
  destruct (healed_fixed mem Q Hm HW HWq L0 L E2) as (h & Z & St).
  destruct (@zn_from mem memb noise m W Wq false Hm ltac:(intros _; exact HWq) _ _ H2 St Hr Ht) as (h2 & Er & St2).
  destruct (zsim_run mem _ Hm HW Z Er) as (g2 & Eg & Z2). exists g2. split; [exact Eg|].
  fold K in St2. pose proof (@zn_answer mem memb noise m W Wq false Hm ltac:(intros _; exact HWq) _ _ St2) as (A1 & A2).
  split; [|split].
  - intros d Hd. destruct (zsim_diag _ Z2 (A1 _ Hd)) as (G & _). exact G.
  - intros c Hc Hx. destruct (@zn_column mem memb noise m W Wq false Hm ltac:(intros _; exact HWq) _ _ c St2 Hc Hx) as (h' & Eh).
    destruct (zsim_column mem _ Hm HW Z2 Eh) as (g' & Eg' & _). eauto.
  - intros r c R1 R2. rewrite (zsim_single _ _ _ Z2). apply A2; auto.
Qed.
Print Assumptions C107_fixed.

(** What exactly a rejected append leaves: the points, and in a series append also that the cached first row is behind by that many points; a rejected
    query append forgets the cached column, and the first row too if points were dropped.  The statistics are as before. *)
Theorem C107_left : forall (A : Type) (NA : NumOps A) (g : @zn A) values e,
  (snd (zn_append_series_st g values) = Some e -> forall b k, rb_push (ch_series (zn_c g)) values = Ok (b, k) ->
     let c := zn_c g in
     fst (zn_append_series_st g values) =
       mkZn (mkCache (ch_m c) (ch_self c) b (ch_qbuf c) (ch_first c) (ch_backlog c + length values) (ch_prev c) (ch_vals c)) (zn_noise g) (zn_s g) (zn_q g)) /\
  (ch_self (zn_c g) = false -> snd (zn_append_query_st g values) = Some e -> forall b k, rb_push (ch_qbuf (zn_c g)) values = Ok (b, k) ->
     let c := zn_c g in
     fst (zn_append_query_st g values) =
       mkZn (mkCache (ch_m c) false (ch_series c) b (match k with 0 => ch_first c | _ => None end) (ch_backlog c) None (ch_vals c)) (zn_noise g) (zn_s g) (zn_q g)).
Proof.
  intros A NA g values e. split.
  - unfold zn_append_series_st. destruct (_ =? 0); [discriminate|]. intros E b k P. unfold cache_append_s in *. rewrite P in *. cbn [bind fst snd] in *.
    destruct (ch_self (zn_c g)) eqn:Es; cbn [ch_m ch_series ch_backlog] in *; destruct (zstats_append _ _ _ _); try discriminate; reflexivity.
  - intros Es. unfold zn_append_query_st. rewrite Es. destruct (_ =? 0); [discriminate|]. intros E b k P. unfold cache_append_q in *. rewrite P in *. cbn [bind fst snd] in *.
    cbn [ch_m ch_qbuf] in *. destruct (zstats_append _ _ _ _); try discriminate. cbn [fst]. rewrite Es. destruct k; reflexivity.
Qed.
Print Assumptions C107_left.

(** A query of three points; two columns, so that a first row and a column are cached; a NaN is rejected, then a column is calculated; six accepted
    points later the first row in the cache is old, and after two more columns it has the products of the query's first points (integers, m = 2, W = 3). *)
Example C107_example_fixed : exists g0 g1 g2 g3 b b', zn_prepare_streaming none_Z (fun _ => true) (Fin 0%Z) 2 2 3 (Some 3) = Ok g0 /\
  foldM (zn_caught none_Z) [CQuery (map (@Fin Z) [1; 3; 5]%Z); CSeries (map (@Fin Z) [0; 2; 4]%Z); CCol 0; CCol 1; CSeries [NaN]; CCol 0] g0 = Ok g1 /\
  foldM (@zn_append_series Z NumZ) (map (map (@Fin Z)) [[2; 2; 2]; [4; 6]; [8]]%Z) g1 = Ok g2 /\
  ch_first (zn_c g2) = Some b /\ rb_view b = map (@Fin Z) [6; 14]%Z /\ ch_backlog (zn_c g2) = 7 /\ ch_prev (zn_c g2) = Some (-6)%Z /\
  grun (zn_calc_column none_Z) (@zn_calc_diagonal Z NumZ) zn_append_series zn_append_query g2 [CCol 0; CCol 1] = Ok g3 /\
  ch_first (zn_c g3) = Some b' /\ rb_view b' = map (@Fin Z) [1*4 + 3*6; 1*6 + 3*8]%Z /\ ch_vals (zn_c g3) = map (@Fin Z) [1*6 + 3*8; 3*6 + 5*8]%Z.
Proof.
  do 6 eexists. split; [vm_compute; reflexivity|]. split; [vm_compute; reflexivity|]. split; [vm_compute; reflexivity|]. split; [vm_compute; reflexivity|].
  split; [vm_compute; reflexivity|]. split; [vm_compute; reflexivity|]. split; [vm_compute; reflexivity|]. split; [vm_compute; reflexivity|].
  split; [vm_compute; reflexivity|]. split; vm_compute; reflexivity.
Qed.

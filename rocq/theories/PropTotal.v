(** * PropTotal: calls that make sense do not raise

    For every arithmetic ([NumOps]): exact, rounded, double precision; for every sequence of calls in which every column and
    diagonal asked for exists. *)
From Coq Require Import QArith.
From Verif Require Import Np NpFacts MUtil MArith MCache MEuclid MZnorm SReal SCalc SGen Inst InstF PGenRun PTotal.
Set Implicit Arguments.
Open Scope nat_scope.

(** The calls on a bound generator *)
Definition eu_calls {A} {NA : NumOps A} (mem : nat -> num A) := grun (eu_calc_column mem) eu_calc_diagonal (@eu_append_series A) (@eu_append_query A).
Definition zn_calls {A} {NA : NumOps A} (mem : nat -> num A) := grun (zn_calc_column mem) zn_calc_diagonal zn_append_series zn_append_query.

(** A column (diagonal) is returned for every column (diagonal) of the matrix, with one value per row (cell) *)
Definition answers {A G} (g_col : G -> nat -> res (G * list (num A))) (g_diag : G -> Z -> res (G * list (num A))) (m : nat) (S Q : list (num A)) (g : G) : Prop :=
  (forall c, has_col m S Q c -> exists g' v, g_col g c = Ok (g', v) /\ length v = length Q + 1 - m) /\
  (forall d, has_diag m S Q d -> exists g' v, g_diag g d = Ok (g', v) /\ Z.of_nat (length v) = dlen (length Q + 1 - m) (length S + 1 - m) d).

(** Data without NaN and infinities *)
Definition finite_data {A} (l : list (num A)) : Prop := forall x, In x l -> exists a, x = Fin a.
Definition finite_calls {A} (H : list (gcall (num A))) : Prop := finite_data (s_points H) /\ finite_data (q_points H).

Lemma finite_fins {A} (l : list (num A)) : finite_data l -> fins l.
Proof. intro H. apply Forall_forall. intros x Hx. destruct (H x Hx) as (a & ->). reflexivity. Qed.
Lemma finite_data_calls {A} (H : list (gcall (num A))) : finite_calls H -> Forall (data_call fins) H.
Proof.
  intros [H1 H2]. apply Forall_forall. intros o Ho. destruct o as [xs|xs|c|d]; cbn [data_call]; try exact I; apply finite_fins; intros x Hx; [apply H1|apply H2]; apply in_flat_map; eexists; split; eauto.
Qed.
Lemma any_calls {X} (H : list (gcall X)) : Forall (data_call (fun _ => True)) H.
Proof. apply Forall_forall. intros [xs|xs|c|d] _; exact I. Qed.

Lemma eu_total_from {A} {NA : NumOps A} mem m W Wq self H0 g0 H : 0 < m -> @linv A m W Wq self (wS W H0) (wQ self W Wq H0) g0 -> in_range self m W Wq (H0 ++ H) ->
  exists g, eu_calls mem g0 H = Ok g /\ answers (eu_calc_column mem) eu_calc_diagonal m (wS W (H0 ++ H)) (wQ self W Wq (H0 ++ H)) g.
Proof.
  intros Hm I0 Hr. unfold eu_calls. destruct (@total_run A (num A) cache (eu_calc_column mem) eu_calc_diagonal (@eu_append_series A) (@eu_append_query A) self m W Wq (fun _ => True) (@linv A m W Wq self)) with (H0 := H0) (g0 := g0) (H := H) as (g & E & Ig); auto.
  - intros. eapply eu_s; eauto.
  - intros. eapply eu_q; eauto.
  - intros S Q g c Ig Hc. destruct (@eu_c A NA mem m W Wq self Hm S Q g c Ig Hc) as (g' & v & E & _ & I'). eauto.
  - intros S Q g d Ig Hd. destruct (@eu_d A NA mem m W Wq self Hm S Q g d Ig Hd) as (v & E & _). eauto.
  - apply any_calls.
  - exists g. split; [exact E|]. split.
    + intros c Hc. destruct (@eu_c A NA mem m W Wq self Hm _ _ g c Ig Hc) as (g' & v & Ec & L & _). eauto.
    + intros d Hd. destruct (@eu_d A NA mem m W Wq self Hm _ _ g d Ig Hd) as (v & Ed & L). eauto.
Qed.
Lemma zn_total_from {A} {NA : NumOps A} mem m W Wq self H0 g0 H : 0 < m -> (self = false -> m <= Wq) -> @zinvl A m W Wq self (wS W H0) (wQ self W Wq H0) g0 -> in_range self m W Wq (H0 ++ H) -> finite_calls H ->
  exists g, zn_calls mem g0 H = Ok g /\ @zinvl A m W Wq self (wS W (H0 ++ H)) (wQ self W Wq (H0 ++ H)) g /\ answers (zn_calc_column mem) zn_calc_diagonal m (wS W (H0 ++ H)) (wQ self W Wq (H0 ++ H)) g.
Proof.
  intros Hm HWq I0 Hr HF. unfold zn_calls. destruct (@total_run A (num A) zn (zn_calc_column mem) zn_calc_diagonal zn_append_series zn_append_query self m W Wq fins (@zinvl A m W Wq self)) with (H0 := H0) (g0 := g0) (H := H) as (g & E & Ig); auto.
  - intros. eapply zn_s_ok; eauto.
  - intros. eapply zn_q_ok; eauto.
  - intros S Q g c Ig Hc. destruct (@zn_c_ok A NA mem m W Wq self Hm HWq S Q g c Ig Hc) as (g' & v & E & _ & I'). eauto.
  - intros S Q g d Ig Hd. destruct (@zn_d_ok A NA mem m W Wq self Hm HWq S Q g d Ig Hd) as (v & E & _). eauto.
  - apply finite_data_calls, HF.
  - exists g. split; [exact E|]. split; [exact Ig|]. split.
    + intros c Hc. destruct (@zn_c_ok A NA mem m W Wq self Hm HWq _ _ g c Ig Hc) as (g' & v & Ec & L & _). eauto.
    + intros d Hd. destruct (@zn_d_ok A NA mem m W Wq self Hm HWq _ _ g d Ig Hd) as (v & Ed & L). eauto.
Qed.

(** C68. Euclidean, streaming; the data can contain NaN and infinities. *)
Theorem C68_euclidean : forall A (NA : NumOps A) (mem : nat -> num A) sf m W Wq self H, 0 < m -> m <= W -> (self = false -> 0 < Wq) -> (1 <= sf)%Q -> (sf <= 2)%Q -> in_range self m W Wq H ->
  exists g0 g, eu_prepare_streaming mem sf m W (if self then None else Some Wq) = Ok g0 /\ eu_calls mem g0 H = Ok g /\
    answers (eu_calc_column mem) eu_calc_diagonal m (wS W H) (wQ self W Wq H) g.
Proof.
  intros A NA mem sf m W Wq self H Hm HW HWq H1 H2 Hr. destruct (@eu_streaming_ok A mem sf m W Wq self Hm HW HWq H1 H2) as (g0 & E0 & I0).
  destruct (@eu_total_from A NA mem m W Wq self [] g0 H Hm I0 Hr) as (g & E & R). exists g0, g. auto.
Qed.
Print Assumptions C68_euclidean.

(** Euclidean, batch *)
Theorem C68_euclidean_batch : forall A (NA : NumOps A) (mem : nat -> num A) sf m S q H, 0 < m -> m <= length S -> 0 < length (query_or S q) -> (1 <= sf)%Q ->
  in_range (self_of q) m (length S) (length (query_or S q)) (loaded S q ++ H) ->
  exists g0 g, eu_prepare mem sf m S q = Ok g0 /\ eu_calls mem g0 H = Ok g /\
    answers (eu_calc_column mem) eu_calc_diagonal m (wS (length S) (loaded S q ++ H)) (wQ (self_of q) (length S) (length (query_or S q)) (loaded S q ++ H)) g.
Proof.
  intros A NA mem sf m S q H Hm HW HWq H1 Hr. destruct (@eu_batch_ok A mem sf m S q Hm HW HWq H1) as (g0 & E0 & I0).
  assert (HN : calc_only m S (query_or S q) []) by (intros o []). pose proof (wS_batch _ HN) as E1. pose proof (wQ_batch _ HN) as E2. rewrite app_nil_r in E1, E2.
  match type of I0 with ?P S ?Q g0 => assert (I1 : P (wS (length S) (loaded S q)) (wQ (self_of q) (length S) (length (query_or S q)) (loaded S q)) g0) by (rewrite E1, E2; exact I0) end.
  destruct (@eu_total_from A NA mem m _ _ _ (loaded S q) g0 H Hm I1 Hr) as (g & E & R). exists g0, g. auto.
Qed.
Print Assumptions C68_euclidean_batch.

(** z-normalised, streaming; finite data; calc_single too. *)
Theorem C68_znorm : forall A (NA : NumOps A) (mem : nat -> num A) memb noise sf m W Wq self H, 0 < m -> m <= W -> (self = false -> m <= Wq) -> (1 <= sf)%Q -> (sf <= 2)%Q -> fltb noise fzero = false ->
  in_range self m W Wq H -> finite_calls H ->
  exists g0 g, zn_prepare_streaming mem memb noise sf m W (if self then None else Some Wq) = Ok g0 /\ zn_calls mem g0 H = Ok g /\
    let S := wS W H in let Q := wQ self W Wq H in
    answers (zn_calc_column mem) zn_calc_diagonal m S Q g /\ forall r c dot, r + m <= length Q -> c + m <= length S -> exists x, zn_calc_single g r c dot = Ok x.
Proof.
  intros A NA mem memb noise sf m W Wq self H Hm HW HWq H1 H2 Hn Hr HF. destruct (@zn_empty_ok A mem memb noise sf m W Wq self Hm HW HWq H1 H2) as (g0 & E0 & I0).
  rewrite <- (@wS_nil (num A) W) in I0 at 1. rewrite <- (@wQ_nil (num A) self W Wq) in I0.
  destruct (@zn_total_from A NA mem m W Wq self [] g0 H Hm HWq I0 Hr HF) as (g & E & Ig & R). exists g0, g. split; [unfold zn_prepare_streaming; rewrite zn_config_ok by assumption; exact E0|]. split; [exact E|]. split; [exact R|].
  intros r c dot Hr' Hc. exact (@zn_1_ok A NA mem m W Wq self Hm HWq _ _ g r c dot Ig Hr' Hc).
Qed.
Print Assumptions C68_znorm.

(** z-normalised, batch *)
Theorem C68_znorm_batch : forall A (NA : NumOps A) (mem : nat -> num A) memb noise sf m S q H, 0 < m -> m <= length S -> m <= length (query_or S q) -> (1 <= sf)%Q -> fltb noise fzero = false ->
  finite_data S -> finite_data (query_or S q) -> in_range (self_of q) m (length S) (length (query_or S q)) (loaded S q ++ H) -> finite_calls H ->
  exists g0 g, zn_prepare mem memb noise sf m S q = Ok g0 /\ zn_calls mem g0 H = Ok g /\
    let S' := wS (length S) (loaded S q ++ H) in let Q' := wQ (self_of q) (length S) (length (query_or S q)) (loaded S q ++ H) in
    answers (zn_calc_column mem) zn_calc_diagonal m S' Q' g /\ forall r c dot, r + m <= length Q' -> c + m <= length S' -> exists x, zn_calc_single g r c dot = Ok x.
Proof.
  intros A NA mem memb noise sf m S q H Hm HW HWq H1 Hn F1 F2 Hr HF. destruct (@zn_batch_ok A NA mem memb noise sf m S q Hn Hm HW HWq H1 (finite_fins F1) (finite_fins F2)) as (g0 & E0 & I0).
  assert (HN : calc_only m S (query_or S q) []) by (intros o []). pose proof (wS_batch _ HN) as E1. pose proof (wQ_batch _ HN) as E2. rewrite app_nil_r in E1, E2.
  match type of I0 with ?P S ?Q g0 => assert (I1 : P (wS (length S) (loaded S q)) (wQ (self_of q) (length S) (length (query_or S q)) (loaded S q)) g0) by (rewrite E1, E2; exact I0) end.
  destruct (@zn_total_from A NA mem m _ _ _ (loaded S q) g0 H Hm (fun _ => HWq) I1 Hr HF) as (g & E & Ig & R). exists g0, g. split; [exact E0|]. split; [exact E|]. split; [exact R|].
  intros r c dot Hr' Hc. exact (@zn_1_ok A NA mem m _ _ _ Hm (fun _ => HWq) _ _ g r c dot Ig Hr' Hc).
Qed.
Print Assumptions C68_znorm_batch.

(** ** Examples: double precision, a history outside [trusted] (the series grows by more than half of the room that is left
    after a column), with a NaN for the Euclidean generator *)
Definition xh : list (gcall (num f64)) :=
  [CSeries [F 1; F 2; NaN]; CQuery [F 1; F 4; F 2]; CCol 1; CSeries [F 3; F 5; F 4]; CCol 2; CCol 3; CDiag 2; CQuery [F 7]; CCol 3].
Example C68_range : in_range false 2 5 3 xh.
Proof.
  intros H1 o H2 E. unfold xh in E.
  do 9 (destruct H1 as [|o1 H1]; cbn [app] in E; [injection E as <- _; cbn; unfold has_col, has_diag; try (exists 0, 2); cbn; auto; try lia|]; injection E as <- E).
  destruct H1; discriminate E.
Qed.
Example C68_run : exists g0 g g' v, eu_prepare_streaming (fun _ => NaN) 2 2 5 (Some 3) = Ok g0 /\ eu_calls (fun _ => NaN) g0 xh = Ok g /\
  wS 5 xh = [F 2; NaN; F 3; F 5; F 4] /\ wQ false 5 3 xh = [F 4; F 2; F 7] /\ eu_calc_column (fun _ => NaN) g 2 = Ok (g', v) /\ length v = 2.
Proof. do 4 eexists. repeat (split; [vm_compute; reflexivity|]). reflexivity. Qed.
Definition xz : list (gcall (num f64)) :=
  [CSeries [F 1; F 2; F 9]; CQuery [F 1; F 4; F 2]; CCol 1; CSeries [F 3; F 5; F 4]; CCol 2; CCol 3; CDiag 2; CQuery [F 7]; CCol 3].
Example C68_run_znorm : finite_calls xz /\ exists g0 g x, zn_prepare_streaming (fun _ => NaN) (fun _ => false) (F 0) 2 2 5 (Some 3) = Ok g0 /\ zn_calls (fun _ => NaN) g0 xz = Ok g /\
  zn_calc_single g 1 3 None = Ok x /\ fltb (F 2) x = true.
Proof.
  split; [split; intros x Hx; cbn in Hx; repeat (destruct Hx as [<-|Hx]; [eexists; reflexivity|]); destruct Hx|].
  do 3 eexists. repeat (split; [vm_compute; reflexivity|]). reflexivity.
Qed.

(** * Property C97, joins: profiles of streams after exceptions, with the generators of the package *)
From Coq Require Import QArith Reals Lra Permutation.
From Verif Require Import Np NpFacts Inst Mat MUtil MRing SLog MProfile MEuclid MZnorm MCache MFilter MCalc SReal SCalc SStream PStream SMixed SGen SFilter SEnd SEndStream PArith PCalcEnd PEndStream PEuclid PZgeo PZnorm PFilter PFilterReal
  SEndAll SEndCons PEndProg SEndStreamAll PEndStreamAll PropCalc PropZnorm PropFilter PropReject PropEnd PropEndStream PropEndStreamAll MRaise SRaise PRaise MRejected MStreamRaise SStreamRaise PStreamRaise PropStreamRaise PRaiseSelf PropRaiseSelf SRaiseJoin PRaiseJoin.
Set Implicit Arguments.
Open Scope nat_scope.

Lemma kind_answers_join e k u m W Wq : sur_ok e -> kind_ok k -> quantum_ok k u -> 1 <= m <= W -> m <= Wq ->
  exists g0 g_diag, sprepare (u_mem e) (u_memb e) (u_memb' e) (u_sf e) (u_sf' e) k (Z.of_nat m) (Z.of_nat W) (Some (Z.of_nat Wq)) = Ok g0 /\
    answers (scol (u_mem e) k) g_diag (@sappend_series k) (@sappend_query k) (dist_or_inf (kdist k)) false m W Wq (stream_data k u) g0.
Proof.
  intros (S1 & S2 & S3 & S4 & _) Hk Hu Hm HmQ.
  destruct k as [noise| |noise]; cbn [kind_ok quantum_ok kdist stream_data sprepare scol sappend_series sappend_query sstate] in *.
  - destruct (@zn_stream_all (u_mem e) (u_memb e) noise (u_sf e) m W Wq false) as (g0 & E0 & HA); auto; try lia; try discriminate. exists g0, (@zn_calc_diagonal R NumR). split; [rewrite <- E0; cbn [option_map]; rewrite !Nat2Z.id; reflexivity|].
    apply answers_or_inf; [intros xs; apply finite_all|]. apply real_answers; [intros xs; apply finite_all|]. intros H Hr Ht _. destruct (HA H Hr Ht) as (g & Eg & _ & HC). exists g. split; [exact Eg|exact HC].
  - destruct (@eu_stream_all (u_mem e) (u_sf e) u m W Wq false) as (g0 & E0 & HA); auto; try lia; try discriminate. exists g0, (@eu_calc_diagonal R NumR). split; [rewrite <- E0; cbn [option_map]; rewrite !Nat2Z.id; reflexivity|].
    apply answers_or_inf; [intros xs; apply grid_finite|]. apply real_answers; [intros xs; apply grid_finite|]. exact HA.
  - destruct (@C24_nonfinite_znorm_partial (u_mem e) (u_memb e) (u_memb' e) noise (u_sf e) (u_sf' e) m W Wq false) as (f0 & E0 & HA); auto; try lia; try discriminate. exists f0, (fs_calc_diagonal (@zn_calc_diagonal R NumR)). split; [rewrite <- E0; cbn [option_map]; rewrite !Nat2Z.id; reflexivity|].
    intros H Hr Ht Hv. destruct (HA H Hr Ht Hv) as (f & Ef & _ & HC). exists f. split; [exact Ef|exact HC].
Qed.

(** C97. Joins of streams, with any generators of the package and a ShiftingMatrixProfileLR among consumers that may raise in calculate_columns; the
    client catches the exceptions and goes on, gives points to the series only before it has a subsequence, when its window is full, or at most half
    of what fits, and asks for columns only when the query has a subsequence.  At any time the profile (and the left and right profile) is that of the
    points that have arrived, for columns [a] that were calculated when [n] points of the series and [nq] points of the query had arrived; unless
    the client skipped columns, there is such a moment for every column that the calculator regards as calculated.  Missing: other chunk sizes
    (C97_join_refuted), appends in which consumers raise (C96). *)
Theorem C97_join_partial : forall e k u m W Wq ndim buffer dims, sur_ok e -> stream_posed k u m W (Some Wq) ndim buffer dims ->
  forall C (c_step : C -> event (num R) -> C * option exn) (inj : @smp R -> C) g0 t0 cs memn memz sfc s0 i id ops,
  let w := W + 1 - m in let h := Wq + 1 - m in
  let gens := map (fun d => (g0, d)) dims in
  let col := keep (scol (u_mem e) k) in let app_s := keep_a (@sappend_series k) in let app_q := keep_a (@sappend_query k) in
  sprepare (u_mem e) (u_memb e) (u_memb' e) (u_sf e) (u_sf' e) k (Z.of_nat m) (Z.of_nat W) (Some (Z.of_nat Wq)) = Ok g0 -> stm_new (sstate k) C (Z.of_nat m) (Z.of_nat W) (Some (Z.of_nat Wq)) ndim buffer = Ok t0 ->
  (forall s ev s', smp_step s ev = Ok s' -> c_step (inj s) ev = (inj s', None)) -> (1 <= sfc)%Q -> (sfc <= 2)%Q -> smp_init memn memz sfc h w = Ok s0 ->
  nth_error cs i = Some (inj s0, [id]) -> ids_ok gens cs -> Forall (is_array (stream_data k u)) ops -> paced (measured m W) false ndim ops ->
  (forall c ids, In (c, ids) cs -> (exists j, (c, ids) = (inj s0, [j])) \/
    shifts_return (heard false m W Wq ndim (-1) (fun j => nth j dims 0) (fun _ s q j => join_column (dist_or_inf (kdist k)) m W Wq s q j) ids) c_step c) ->
  let t := go_on col app_s app_q c_step (u_set e) ops (stm_with t0 gens cs) in
  let S := arrived ndim (nth id dims 0) ops in let Q := arrived_q ndim (nth id dims 0) ops in let first := lost W (length S) in let D r a := dist_or_inf (kdist k) (sub m Q r) (sub m S a) in
  st_sp t = Z.of_nat (length S) /\ st_qp t = Z.of_nat (length Q) /\
  exists s moments, nth_error (ca_cons (st_calc t)) i = Some (inj s, [id]) /\
    (forall a n nq, In (a, n, nq) moments -> n <= length S /\ nq <= length Q /\ in_window m W n a /\ m <= nq) /\
    (Forall (@default_start (num R)) ops -> forall j, (Z.of_nat j <= ca_last (st_calc t))%Z -> exists n nq, In (first + j, n, nq) moments) /\
    window_profile D first w (seen (-1) (cells_join m Wq moments)) (smp_mp s, smp_idx s) /\
    window_profile D first w (fun a r => seen (-1) (cells_join m Wq moments) a r /\ r <= a) (rb_view (s_left s), rb_view (s_ileft s)) /\
    window_profile D first w (fun a r => seen (-1) (cells_join m Wq moments) a r /\ a < r) (rb_view (s_right s), rb_view (s_iright s)).
Proof.
  intros e k u m W Wq ndim buffer dims HS (H1 & H2 & H3 & H4 & H5 & H6 & H7) C c_step inj g0 t0 cs memn memz sfc s0 i id ops w h gens col app_s app_q Ep Et Hi S1 S2 Es Hc Hids HA HP HQ t S Q first D.
  destruct (@kind_answers_join e k u m W Wq HS H1 H2 H3 H4) as (g0' & g_diag & Ep' & ANS). rewrite Ep in Ep'. injection Ep' as <-.
  pose proof (@answers_join R (num R) (sstate k) (scol (u_mem e) k) g_diag (@sappend_series k) (@sappend_query k) (dist_or_inf (kdist k)) m W Wq (stream_data k u) g0 ltac:(lia) H4 ANS) as HMS.
  assert (Egs : map snd gens = dims) by (unfold gens; rewrite map_map; apply map_id).
  assert (Hid : id < length dims) by (rewrite <- Egs, map_length; eapply Hids; [eapply nth_error_In; exact Hc|left; reflexivity]).
  assert (Hd : nth id dims 0 < ndim) by (apply H7, nth_In, Hid).
  assert (Eb : ca_tmb (st_calc t0) = (-1)%Z) by (unfold stm_new, ca_new in Et; cbn [option_map bind] in Et; injection Et as <-; reflexivity).
  assert (HN : forall x y, isnan (dist_or_inf (kdist k) x y) = false) by (intros; unfold dist_or_inf; destruct (_ && _); reflexivity).
  assert (Hgd : forall g d, In (g, d) gens -> d < ndim) by (intros g d Hg; unfold gens in Hg; apply in_map_iff in Hg; destruct Hg as (d' & Ed & Hin); injection Ed as _ <-; auto).
  set (Inv := JoinInv (scol (u_mem e) k) g_diag (@sappend_series k) (@sappend_query k) m W Wq (stream_data k u) g0) in *.
  assert (HG : gens_ok (fun id g => Inv id [] [] g) gens) by (intros j g d Hg; unfold gens in Hg; rewrite nth_error_map in Hg; destruct (nth_error dims j); [|discriminate]; injection Hg as <- _; apply JoinInv_nil).
  pose proof (@join_append R (num R) (sstate k) (scol (u_mem e) k) g_diag (@sappend_series k) (@sappend_query k) (dist_or_inf (kdist k)) m W Wq (stream_data k u) g0 ltac:(lia) H4) as JA.
  assert (HR : appends_return false ndim col app_s app_q c_step (u_set e) ops (stm_with t0 gens cs)).
  { refine (@appends_if R (num R) (sstate k) C col app_s app_q c_step (u_set e) m W (Some Wq) ndim buffer t0 gens cs (stream_data k u) (measured m W) Inv (fun _ s q j => join_column (dist_or_inf (kdist k)) m W Wq s q j) ops H3 H4 H5 Et (proj2 (proj2 (proj2 (proj2 HS)))) Hids Hgd HG HMS HA HP _ _ _).
    - intros j s q g xs HI HL Hx. exact (proj1 (JA ANS j s q g xs HI Hx) HL).
    - intros _ j s q g xs HI Hx. exact (proj2 (JA ANS j s q g xs HI Hx)).
    - intros c ids Hin. destruct (HQ c ids Hin) as [[j Ej]|Hq]; rewrite Egs, Eb; [|intros ops' ss qs pre ev post [He _] Hsh; exact (Hq ops' ss qs pre ev post He Hsh)]. injection Ej as -> ->.
      assert (Hj : nth j dims 0 < ndim) by (apply H7, nth_In; rewrite <- Egs, map_length; eapply Hids; [exact Hin|left; reflexivity]).
      intros ops' ss qs pre ev post [He HP'] _.
      destruct (@smp_join R NumR OrdR (num R) (dist_or_inf (kdist k)) m W Wq ndim (fun i => nth i dims 0) j H3 H4 HN Hj memn memz sfc ops' ss qs _ S1 S2 He HP') as (c0 & c & moments & E0 & Er & _).
      fold w h in E0. rewrite Es in E0. injection E0 as <-. exact (@run_shifts R NumR C c_step inj Hi pre ev post s0 c Er). }
  destruct (@start_if R (num R) (sstate k) C col app_s app_q c_step (u_set e) m W (Some Wq) ndim buffer t0 gens cs (stream_data k u) (measured m W) Inv (fun _ s q j => join_column (dist_or_inf (kdist k)) m W Wq s q j) ops H3 H4 H5 Et (proj2 (proj2 (proj2 (proj2 HS)))) Hids Hgd HG HMS HA HP HR) as (ss & qs & AX).
  cbn [is_self] in AX. fold t in AX. rewrite Egs, Eb in AX. pose proof (ax_cons AX) as P2.
  assert (K : forall T T' (cs : list T) (cs' : list T') P i c, Forall2 P cs cs' -> nth_error cs i = Some c -> exists c', nth_error cs' i = Some c' /\ P c c' : Prop).
  { clear. intros T T' cs cs' P i c HF. revert i. induction HF as [|x y l l' Hp _ IH]; intros [|i] Hn; try discriminate; [injection Hn as <-; exists y; auto|apply IH; exact Hn]. }
  destruct (K _ _ _ _ _ _ _ P2 Hc) as ([c' ids'] & Hn & Ei & evs & Ea & He & Hp). cbn [fst snd] in *. subst ids'. clear K P2.
  destruct (@join_points R (num R) (dist_or_inf (kdist k)) m W Wq ndim (fun i => nth i dims 0) id H3 H4 Hd [id] ops ss qs evs He) as ([B Q1] & [Bq Q2] & _).
  split; [rewrite (ax_sp AX), <- (block_nth B Hd), (Q1 _ Hd); reflexivity|]. split; [rewrite (ax_qp AX), <- (block_nth Bq Hd), (Q2 _ Hd) by reflexivity; reflexivity|].
  destruct (@smp_join R NumR OrdR (num R) (dist_or_inf (kdist k)) m W Wq ndim (fun i => nth i dims 0) id H3 H4 HN Hd memn memz sfc ops ss qs evs S1 S2 He HP) as (c0 & c & moments & E0 & Er & M1 & M2 & W1 & W2 & W3).
  fold w h in E0. rewrite Es in E0. injection E0 as <-. exists c, moments. rewrite (after_run _ _ Hi _ _ Er) in Ea. subst c'. split; [exact Hn|]. split; [exact M1|]. split; [|split; [exact W1|split; [exact W2|exact W3]]].
  intros HD j Hj. destruct (Hp HD j Hj) as (pre & vals & post & Ev & _). exact (M2 j pre vals post Ev).
Qed.
Print Assumptions C97_join_partial.

(** ** Examples *)
Local Notation zs := (map (@Fin Z)).
(** A measured client of a join on integers: the window of the series is filled at once, and then shifted.  The consumer in front raises at the second
    column; the columns are calculated again after an append, and the profile is that of the client without exceptions. *)
Definition ops_join : list (xop (Np.num Z)) := [XQuery (Pts [zs [0; 5; 1]]); XSeries (Pts [zs [0; 4; 1; 2]]); all4; XSeries (Pts [zs [6; 0]]); all4]%Z.
Example C97_join_example : paced (measured 2 4) false 1 ops_join /\
  raisedq [(Fl None, [0]); (sp0 2 3, [0])] ops_join = [None; None; None; None; None] /\ raisedq [(Fl (Some 1), [0]); (sp0 2 3, [0])] ops_join = [None; None; Some ValueError; None; None] /\
  shownq [(Fl None, [0]); (sp0 2 3, [0])] ops_join = shownq [(Fl (Some 1), [0]); (sp0 2 3, [0])] ops_join /\ shownq [(Fl (Some 1), [0]); (sp0 2 3, [0])] ops_join = Some (zs [3; 2; 1], [0; 0; 1])%Z.
Proof.
  split; [|repeat split; vm_compute; reflexivity]. intros pre op post E ns nq. unfold ops_join in E.
  repeat (destruct pre as [|? pre]; [injection E as <- _; subst ns nq; cbn; try exact I; try lia; intros rows n _; cbn; lia|cbn [app] in E; injection E as <- E]).
  destruct pre; discriminate.
Qed.

(** The hypotheses hold for the filtered generator, points that are not finite, and a consumer whose second column raises *)
Definition ops7 : list (xop (num R)) := [XQuery (Pts [[Fin 3; PInf]; [Fin 1; Fin 2]]%R); XSeries (Pts [[Fin 0; NaN; Fin 1; Fin 2]; [Fin 1; Fin 2; Fin 5; Fin 4]]%R); XCols never None (RFloat (Fin 1%Q));
  XQuery (Pt [Fin 4; Fin 0]%R); XSeries (Pts [[Fin 9]; [Fin 0]]%R); XCols never None (RFloat (Fin 1%Q))].
Example C97_join_hyps : exists g0 t0 s0, let e := mkSur (fun _ => NaN) (fun _ => true) (fun _ => false) 1 2 quick in let k := KFiltered 1 in
  let gens := [(g0, 1); (g0, 0)] in let cs := [(inr 0, [1; 0]); (inl s0, [0])] in
  sprepare (u_mem e) (u_memb e) (u_memb' e) (u_sf e) (u_sf' e) k 2 4 (Some 3%Z) = Ok g0 /\ stm_new (sstate k) (@smp R + nat) 2 4 (Some 3%Z) 2 None = Ok t0 /\ smp_init (fun _ => NaN) (fun _ => 77%Z) 2 2 3 = Ok s0 /\
  arrived 2 1 ops7 = [Fin 1; Fin 2; Fin 5; Fin 4; Fin 0]%R /\ arrived_q 2 1 ops7 = [Fin 1; Fin 2; Fin 0]%R /\
  let t := go_on (keep (scol (u_mem e) k)) (keep_a (@sappend_series k)) (keep_a (@sappend_query k)) step6 quick ops7 (stm_with t0 gens cs) in
  let D r a := dist_or_inf (kdist k) (sub 2 (arrived_q 2 1 ops7) r) (sub 2 (arrived 2 1 ops7) a) in
  st_sp t = 5%Z /\ st_qp t = 3%Z /\ exists s moments, nth_error (ca_cons (st_calc t)) 1 = Some (inl s, [0]) /\
    (forall a n nq, In (a, n, nq) moments -> n <= 5 /\ nq <= 3 /\ in_window 2 4 n a /\ 2 <= nq) /\ window_profile D 1 3 (seen (-1) (cells_join 2 3 moments)) (smp_mp s, smp_idx s).
Proof.
  set (e := mkSur (fun _ => NaN) (fun _ => true) (fun _ => false) 1 2 quick).
  assert (HS : sur_ok e) by (do 4 (split; [discriminate|]); split; [apply NoDup_nodup|intro x; apply nodup_In]).
  assert (HP : stream_posed (KFiltered 1) 1 2 4 (Some 3) 2 None [1; 0]) by (split; [cbn; lra|]; split; [exact I|]; do 3 (split; [lia|]); split; [cbn; lia|]; cbn [In]; intros d Hd; lia).
  destruct (@kind_answers_join e (KFiltered 1) 1 2 4 3 HS (proj1 HP) I ltac:(lia) ltac:(lia)) as (g0 & g_diag & E0 & _).
  destruct (stm_new (sstate (KFiltered 1)) (@smp R + nat) 2 4 (Some 3%Z) 2 None) as [t0|x] eqn:Et; [|discriminate].
  destruct (smp_init (A := R) (fun _ => NaN) (fun _ => 77%Z) 2 2 3) as [s0|x] eqn:Es; [|discriminate].
  exists g0, t0, s0. split; [exact E0|]. split; [exact Et|]. split; [reflexivity|]. split; [reflexivity|]. split; [reflexivity|]. cbv zeta.
  destruct (@C97_join_partial e (KFiltered 1) 1 2 4 3 2 None [1; 0] HS HP (@smp R + nat) step6 inl g0 t0 [(inr 0, [1; 0]); (inl s0, [0])] (fun _ => NaN) (fun _ => 77%Z) 2 s0 1 0 ops7 E0 Et) as (P1 & P1' & s & moments & P2 & P3 & _ & P4 & _);
    [|discriminate|discriminate|exact Es|reflexivity| | | | |].
  - intros s ev s' E. cbn [step6]. rewrite E. reflexivity.
  - intros c ids id [E|[E|[]]] Hid; injection E as <- <-; cbn [In] in Hid; cbn [map length]; lia.
  - repeat constructor; try (exists 2; intros r [<-|[<-|[]]]; reflexivity); try (exists 4; intros r [<-|[<-|[]]]; reflexivity); try (exists 1; intros r [<-|[<-|[]]]; reflexivity); intros; discriminate + (intros r [<-|[<-|[]]]; discriminate) + idtac.
    all: match goal with Hr : _ |- _ => destruct Hr as [<-|[<-|[]]]; discriminate end.
  - intros pre op post E ns nq. unfold ops7 in E.
    repeat (destruct pre as [|? pre]; [injection E as <- _; subst ns nq; cbn; try exact I; try lia; intros rows n _; cbn; lia|cbn [app] in E; injection E as <- E]). destruct pre; discriminate.
  - intros c ids [E|[E|[]]]; injection E as <- <-; [right|left; exists 0; reflexivity].
    intros ops ss qs pre ev post _ Hev. assert (K : forall l n, exists n', after step6 l (inr n) = inr n') by (clear; unfold after; induction l as [|ev l IH]; intro n; [exists n; reflexivity|]; cbn [fold_left]; destruct ev; cbn [step6 fst]; apply IH).
    destruct (K pre 0) as [n' ->]. destruct ev; try contradiction; reflexivity.
  - split; [exact P1|]. split; [exact P1'|]. exists s, moments. auto.
Qed.

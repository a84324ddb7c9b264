(** * Property C97: profiles of streams after exceptions, with the generators of the package *)
From Coq Require Import QArith Reals Lra Permutation.
From Verif Require Import Np NpFacts Inst Mat MUtil MRing SLog MProfile MEuclid MZnorm MCache MFilter MCalc SReal SCalc SStream PStream SMixed SGen SFilter SEnd SEndStream PArith PCalcEnd PEndStream PEuclid PZgeo PZnorm PFilter PFilterReal
  SEndAll SEndCons PEndProg SEndStreamAll PEndStreamAll PropCalc PropZnorm PropFilter PropReject PropEnd PropEndStream PropEndStreamAll MRaise SRaise PRaise MRejected MStreamRaise SStreamRaise PStreamRaise PropStreamRaise PRaiseSelf.
Set Implicit Arguments.
Open Scope nat_scope.

Lemma kind_answers e k u m W : sur_ok e -> kind_ok k -> quantum_ok k u -> 1 <= m <= W ->
  exists g0 g_diag, sprepare (u_mem e) (u_memb e) (u_memb' e) (u_sf e) (u_sf' e) k (Z.of_nat m) (Z.of_nat W) None = Ok g0 /\
    answers (scol (u_mem e) k) g_diag (@sappend_series k) (@sappend_query k) (dist_or_inf (kdist k)) true m W W (stream_data k u) g0.
Proof.
  intros (S1 & S2 & S3 & S4 & _) Hk Hu Hm.
  destruct k as [noise| |noise]; cbn [kind_ok quantum_ok kdist stream_data sprepare scol sappend_series sappend_query sstate] in *.
  - destruct (@zn_stream_all (u_mem e) (u_memb e) noise (u_sf e) m W W true) as (g0 & E0 & HA); auto; try lia; try discriminate. exists g0, (@zn_calc_diagonal R NumR). split; [rewrite <- E0, !Nat2Z.id; reflexivity|].
    apply answers_or_inf; [intros xs; apply finite_all|]. apply real_answers; [intros xs; apply finite_all|]. intros H Hr Ht _. destruct (HA H Hr Ht) as (g & Eg & _ & HC). exists g. split; [exact Eg|exact HC].
  - destruct (@eu_stream_all (u_mem e) (u_sf e) u m W W true) as (g0 & E0 & HA); auto; try lia; try discriminate. exists g0, (@eu_calc_diagonal R NumR). split; [rewrite <- E0, !Nat2Z.id; reflexivity|].
    apply answers_or_inf; [intros xs; apply grid_finite|]. apply real_answers; [intros xs; apply grid_finite|]. exact HA.
  - destruct (@C24_nonfinite_znorm_partial (u_mem e) (u_memb e) (u_memb' e) noise (u_sf e) (u_sf' e) m W W true) as (f0 & E0 & HA); auto; try lia; try discriminate. exists f0, (fs_calc_diagonal (@zn_calc_diagonal R NumR)). split; [rewrite <- E0, !Nat2Z.id; reflexivity|].
    intros H Hr Ht Hv. destruct (HA H Hr Ht Hv) as (f & Ef & _ & HC). exists f. split; [exact Ef|exact HC].
Qed.

(** C97. Self-joins of streams, with any generators of the package and a ShiftingMatrixProfileLR among consumers that may raise in
    calculate_columns; the client catches the exceptions and goes on.  At any time the profile (and the left and right profile) is that of the
    points that have arrived, for columns [a] that were calculated when [n] points had arrived (the [moments]); unless the client skipped columns,
    there is such a moment for every column that the calculator regards as calculated.  Missing: joins (refuted below), appends in which consumers raise (C96). *)
Theorem C97_self_partial : forall e k u m W ndim buffer dims, sur_ok e -> stream_posed k u m W None ndim buffer dims ->
  forall C (c_step : C -> event (num R) -> C * option exn) (inj : @smp R -> C) g0 t0 cs memn memz sfc s0 i id ops,
  let w := W + 1 - m in let b := buffer_of (Z.of_nat m) buffer in
  let gens := map (fun d => (g0, d)) dims in
  let col := keep (scol (u_mem e) k) in let app_s := keep_a (@sappend_series k) in let app_q := keep_a (@sappend_query k) in
  sprepare (u_mem e) (u_memb e) (u_memb' e) (u_sf e) (u_sf' e) k (Z.of_nat m) (Z.of_nat W) None = Ok g0 -> stm_new (sstate k) C (Z.of_nat m) (Z.of_nat W) None ndim buffer = Ok t0 ->
  (forall s ev s', smp_step s ev = Ok s' -> c_step (inj s) ev = (inj s', None)) -> (1 <= sfc)%Q -> (sfc <= 2)%Q -> smp_init memn memz sfc w w = Ok s0 ->
  nth_error cs i = Some (inj s0, [id]) -> ids_ok gens cs -> Forall (is_array (stream_data k u)) ops ->
  (forall c ids, In (c, ids) cs -> (exists j, (c, ids) = (inj s0, [j])) \/
    shifts_return (heard true m W W ndim b (fun j => nth j dims 0) (fun _ s _ j => self_column (dist_or_inf (kdist k)) m W s j) ids) c_step c) ->
  let t := go_on col app_s app_q c_step (u_set e) ops (stm_with t0 gens cs) in
  let S := arrived ndim (nth id dims 0) ops in let first := lost W (length S) in let D r a := dist_or_inf (kdist k) (sub m S r) (sub m S a) in
  st_sp t = Z.of_nat (length S) /\
  exists s moments, nth_error (ca_cons (st_calc t)) i = Some (inj s, [id]) /\
    (forall a n, In (a, n) moments -> n <= length S /\ in_window m W n a) /\
    (Forall (@default_start (num R)) ops -> forall j, (Z.of_nat j <= ca_last (st_calc t))%Z -> exists n, In (first + j, n) moments) /\
    window_profile D first w (seen b (cells_at m W moments)) (smp_mp s, smp_idx s) /\
    window_profile D first w (fun a r => seen b (cells_at m W moments) a r /\ r <= a) (rb_view (s_left s), rb_view (s_ileft s)) /\
    window_profile D first w (fun a r => seen b (cells_at m W moments) a r /\ a < r) (rb_view (s_right s), rb_view (s_iright s)).
Proof.
  intros e k u m W ndim buffer dims HS (H1 & H2 & H3 & _ & H5 & H6 & H7) C c_step inj g0 t0 cs memn memz sfc s0 i id ops w b gens col app_s app_q Ep Et Hi S1 S2 Es Hc Hids HA HQ t S first D.
  destruct (@kind_answers e k u m W HS H1 H2 H3) as (g0' & g_diag & Ep' & ANS). rewrite Ep in Ep'. injection Ep' as <-.
  pose proof (@answers_may R (num R) (sstate k) (scol (u_mem e) k) g_diag (@sappend_series k) (@sappend_query k) (dist_or_inf (kdist k)) m W (stream_data k u) g0 ltac:(lia) ANS) as HMS.
  assert (Egs : map snd gens = dims) by (unfold gens; rewrite map_map; apply map_id).
  assert (Hid : id < length dims) by (rewrite <- Egs, map_length; eapply Hids; [eapply nth_error_In; exact Hc|left; reflexivity]).
  assert (Hd : nth id dims 0 < ndim) by (apply H7, nth_In, Hid).
  assert (Eb : ca_tmb (st_calc t0) = b).
  { unfold stm_new, ca_new in Et. cbn [option_map] in Et. unfold b, buffer_of. destruct (_ && _); [|discriminate]. cbn [bind] in Et. injection Et as <-. reflexivity. }
  assert (HN : forall x y, isnan (dist_or_inf (kdist k) x y) = false) by (intros; unfold dist_or_inf; destruct (_ && _); reflexivity).
  assert (Hgd : forall g d, In (g, d) gens -> d < ndim) by (intros g d Hg; unfold gens in Hg; apply in_map_iff in Hg; destruct Hg as (d' & Ed & Hin); injection Ed as _ <-; auto).
  set (Inv := SelfInv (scol (u_mem e) k) g_diag (@sappend_series k) (@sappend_query k) m W (stream_data k u) g0) in *.
  assert (HG : gens_ok (fun id g => Inv id [] [] g) gens) by (intros j g d Hg; unfold gens in Hg; rewrite nth_error_map in Hg; destruct (nth_error dims j); [|discriminate]; injection Hg as <- _; apply SelfInv_nil).
  assert (HR : appends_return true ndim col app_s app_q c_step (u_set e) ops (stm_with t0 gens cs)).
  { refine (@C96_appends R (num R) (sstate k) C col app_s app_q c_step (u_set e) m W None ndim buffer t0 gens cs (stream_data k u) Inv (fun _ s _ j => self_column (dist_or_inf (kdist k)) m W s j) ops H3 (proj2 H3) H5 Et (proj2 (proj2 (proj2 (proj2 HS)))) Hids Hgd HG HMS HA _ _ _).
    - intros j s q g xs HI Hx. exact (@answers_append R (num R) (sstate k) (scol (u_mem e) k) g_diag (@sappend_series k) (@sappend_query k) (dist_or_inf (kdist k)) m W (stream_data k u) g0 ANS j s q g xs HI Hx).
    - discriminate.
    - intros c ids Hin. destruct (HQ c ids Hin) as [[j Ej]|Hq]; [|rewrite Egs, Eb; exact Hq]. injection Ej as -> ->. rewrite Egs, Eb.
      assert (Hj : nth j dims 0 < ndim) by (apply H7, nth_In; rewrite <- Egs, map_length; eapply Hids; [exact Hin|left; reflexivity]).
      intros ops' ss qs pre ev post He _.
      destruct (@smp_told R NumR OrdR (num R) (dist_or_inf (kdist k)) m W ndim b (fun i => nth i dims 0) j H3 HN Hj memn memz sfc ops' ss qs _ S1 S2 He) as (c0 & c & moments & E0 & Er & _).
      fold w in E0. rewrite Es in E0. injection E0 as <-. exact (@run_shifts R NumR C c_step inj Hi pre ev post s0 c Er). }
  destruct (@C96_partial R (num R) (sstate k) C col app_s app_q c_step (u_set e) m W None ndim buffer t0 gens cs (stream_data k u) (SelfInv (scol (u_mem e) k) g_diag (@sappend_series k) (@sappend_query k) m W (stream_data k u) g0) (fun _ s _ j => self_column (dist_or_inf (kdist k)) m W s j) ops H3 (proj2 H3) H5 Et (proj2 (proj2 (proj2 (proj2 HS)))) Hids Hgd HG HMS HA HR) as (ss & qs & P1 & _ & P2).
  cbn [is_self] in P2. fold t in P1, P2. rewrite Egs, Eb in P2.
  assert (K : forall T T' (cs : list T) (cs' : list T') P i c, Forall2 P cs cs' -> nth_error cs i = Some c -> exists c', nth_error cs' i = Some c' /\ P c c' : Prop).
  { clear. intros T T' cs cs' P i c HF. revert i. induction HF as [|x y l l' Hp _ IH]; intros [|i] Hn; try discriminate; [injection Hn as <-; exists y; auto|apply IH; exact Hn]. }
  destruct (K _ _ _ _ _ _ _ P2 Hc) as ([c' ids'] & Hn & Ei & evs & Ea & He & Hp). cbn [fst snd] in *. subst ids'. clear K P2.
  pose proof (@heard_points R (num R) (dist_or_inf (kdist k)) m W ndim b (fun i => nth i dims 0) id H3 Hd) as HPts. specialize (HPts [id] ops ss qs evs He). destruct HPts as (B & Q1 & _).
  split; [rewrite P1, <- (block_nth B Hd); unfold S; rewrite Q1; reflexivity|].
  destruct (@smp_told R NumR OrdR (num R) (dist_or_inf (kdist k)) m W ndim b (fun i => nth i dims 0) id H3 HN Hd memn memz sfc ops ss qs evs S1 S2 He) as (c0 & c & moments & E0 & Er & M1 & M2 & W1 & W2 & W3).
  fold w in E0. rewrite Es in E0. injection E0 as <-. exists c, moments. rewrite (after_run _ _ Hi _ _ Er) in Ea. subst c'. split; [exact Hn|]. split; [exact M1|]. split; [|split; [exact W1|split; [exact W2|exact W3]]].
  intros HD j Hj. destruct (Hp HD j Hj) as (pre & vals & post & Ev & _). exact (M2 j pre vals post Ev).
Qed.
Print Assumptions C97_self_partial.

(** ** Joins: refuted *)
Local Notation zs := (map (@Fin Z)).
Definition eu_join : list (gen4 * nat) := match eu_prepare_streaming none_Z 2 2 4 (Some 3) with Ok g => [(Eu g, 0)] | Err _ => [] end.
Definition app4q (g : gen4) (xs : list (Np.num Z)) : gen4 * option exn :=
  match g with
  | Eu g0 => match eu_append_query g0 xs with Ok g' => (Eu g', None) | Err e => (g, Some e) end
  | Zn g0 => let (g', e) := zn_append_query_st g0 xs in (Zn g', e)
  end.
Definition startq (cs : list (cons4 * list nat)) : stm gen4 cons4 :=
  match stm_new gen4 cons4 2 4 (Some 3%Z) 1 None with Ok t => stm_with t eu_join cs | Err _ => mkStm (mkCalc true 0 0 0 0 0 [] [] 0) 0 0 end.
Definition runq cs ops := go_on col4 app4 app4q step4 quick ops (startq cs).
Definition raisedq cs ops := map (fun k => snd (xcall col4 app4 app4q step4 quick (runq cs (firstn k ops)) (nth k ops all4))) (seq 0 (length ops)).
Definition shownq cs ops := nth 1 (map (fun c => shown (fst c)) (ca_cons (st_calc (runq cs ops)))) None.

(** Both clients make the same calls; they differ in a consumer that raises when it gets its second column.  The column that was being calculated
    is calculated again, after an append, from the cache of the generator (see C21): the profile of the other consumer has a wrong distance, 5
    instead of 1.  No call raises after that. *)
Theorem C97_join_refuted : exists ops, Forall (is_array (fun _ => True)) ops /\
  raisedq [(Fl None, [0]); (sp0 2 3, [0])] ops = [None; None; None; None; None] /\ shownq [(Fl None, [0]); (sp0 2 3, [0])] ops = Some (zs [1; 1; 3], [0; 1; 0])%Z /\
  raisedq [(Fl (Some 1), [0]); (sp0 2 3, [0])] ops = [None; None; Some ValueError; None; None] /\ shownq [(Fl (Some 1), [0]); (sp0 2 3, [0])] ops = Some (zs [1; 5; 3], [0; 0; 0])%Z.
Proof.
  exists [XQuery (Pts [zs [0; 5; 1]]); XSeries (Pts [zs [0; 4; 1]]); all4; XSeries (Pts [zs [2]]); all4]%Z.
  split; [repeat constructor; try (exists 3; intros r [<-|[]]; reflexivity); try (exists 1; intros r [<-|[]]; reflexivity)|].
  repeat split; vm_compute; reflexivity.
Qed.
Print Assumptions C97_join_refuted.

(** ** Examples *)
(** A self-join on integers: the consumer in front raises in the second calculation, the columns are calculated again after an append, and the
    profile has the distances of the client without exceptions (the index 4 is of an equal distance to a subsequence that arrived meanwhile). *)
Definition ops_self : list (xop (Np.num Z)) := [XSeries (Pts [zs [0; 4; 1]]); all4; XQuery (Pt (zs [7])); XSeries (Pts [zs [2; 6]]); all4; XSeries (Pt (zs [5])); all4; all4]%Z.
Example C97_example :
  let cs n := [(Fl n, [0]); (sp0 3 3, [0])] in let profile n := map (fun c => shown (fst c)) (ca_cons (st_calc (run4 1 (eu_on 0) (cs n) ops_self))) in
  raised4 1 (eu_on 0) (cs None) ops_self = [None; None; Some RuntimeError; None; None; None; None; None] /\ profile None = [None; Some (zs [3; 4; 4], [1; 2; 3])%Z] /\
  raised4 1 (eu_on 0) (cs (Some 5)) ops_self = [None; None; Some RuntimeError; None; Some ValueError; None; None; None] /\ profile (Some 5) = [None; Some (zs [3; 4; 4], [1; 4; 3])%Z].
Proof. repeat split; vm_compute; reflexivity. Qed.

(** The hypotheses hold for the filtered generator, points that are not finite, and a consumer whose second column raises *)
Definition step6 (c : @smp R + nat) (ev : event (num R)) : (@smp R + nat) * option exn :=
  match c with
  | inl s => match smp_step s ev with Ok s' => (inl s', None) | Err x => (c, Some x) end
  | inr n => match ev with ECol _ _ => (inr (S n), if n =? 1 then Some ValueError else None) | _ => (c, None) end
  end.
Definition ops6 : list (xop (num R)) := [XSeries (Pts [[Fin 0; NaN; Fin 1]; [Fin 1; Fin 2; Fin 5]]%R); XCols never None (RFloat (Fin 1%Q)); XSeries (Pts [[Fin 9; Fin 9; NInf]; [Fin 0; Fin 1; Fin 2]]%R); XCols never None (RFloat (Fin 1%Q))].
Example C97_example_hyps : exists g0 t0 s0, let e := mkSur (fun _ => NaN) (fun _ => true) (fun _ => false) 1 2 quick in let k := KFiltered 1 in
  let gens := [(g0, 1); (g0, 0)] in let cs := [(inr 0, [1; 0]); (inl s0, [0])] in
  sprepare (u_mem e) (u_memb e) (u_memb' e) (u_sf e) (u_sf' e) k 2 4 None = Ok g0 /\ stm_new (sstate k) (@smp R + nat) 2 4 None 2 (Some 0%Z) = Ok t0 /\ smp_init (fun _ => NaN) (fun _ => 77%Z) 2 3 3 = Ok s0 /\
  arrived 2 1 ops6 = [Fin 1; Fin 2; Fin 5; Fin 0; Fin 1; Fin 2]%R /\
  let t := go_on (keep (scol (u_mem e) k)) (keep_a (@sappend_series k)) (keep_a (@sappend_query k)) step6 quick ops6 (stm_with t0 gens cs) in
  let D r a := dist_or_inf (kdist k) (sub 2 (arrived 2 1 ops6) r) (sub 2 (arrived 2 1 ops6) a) in
  st_sp t = 6%Z /\ exists s moments, nth_error (ca_cons (st_calc t)) 1 = Some (inl s, [0]) /\
    (forall a n, In (a, n) moments -> n <= 6 /\ in_window 2 4 n a) /\ window_profile D 2 3 (seen 0 (cells_at 2 4 moments)) (smp_mp s, smp_idx s).
Proof.
  set (e := mkSur (fun _ => NaN) (fun _ => true) (fun _ => false) 1 2 quick).
  assert (HS : sur_ok e) by (do 4 (split; [discriminate|]); split; [apply NoDup_nodup|intro x; apply nodup_In]).
  assert (HP : stream_posed (KFiltered 1) 1 2 4 None 2 (Some 0%Z) [1; 0]) by (split; [cbn; lra|]; split; [exact I|]; do 3 (split; [lia|]); split; [cbn; lia|]; cbn [In]; intros d Hd; lia).
  destruct (@kind_answers e (KFiltered 1) 1 2 4 HS (proj1 HP) I ltac:(lia)) as (g0 & g_diag & E0 & _).
  destruct (stm_new (sstate (KFiltered 1)) (@smp R + nat) 2 4 None 2 (Some 0%Z)) as [t0|x] eqn:Et; [|discriminate].
  destruct (smp_init (A := R) (fun _ => NaN) (fun _ => 77%Z) 2 3 3) as [s0|x] eqn:Es; [|discriminate].
  exists g0, t0, s0. split; [exact E0|]. split; [exact Et|]. split; [reflexivity|]. split; [reflexivity|]. cbv zeta.
  destruct (@C97_self_partial e (KFiltered 1) 1 2 4 2 (Some 0%Z) [1; 0] HS HP (@smp R + nat) step6 inl g0 t0 [(inr 0, [1; 0]); (inl s0, [0])] (fun _ => NaN) (fun _ => 77%Z) 2 s0 1 0 ops6 E0 Et) as (P1 & s & moments & P2 & P3 & _ & P4 & _);
    [|discriminate|discriminate|exact Es|reflexivity| | | |].
  - intros s ev s' E. cbn [step6]. rewrite E. reflexivity.
  - intros c ids id [E|[E|[]]] Hid; injection E as <- <-; cbn [In] in Hid; cbn [map length]; lia.
  - repeat constructor; try (exists 3; intros r [<-|[<-|[]]]; reflexivity); intros r [<-|[<-|[]]]; discriminate.
  - intros c ids [E|[E|[]]]; injection E as <- <-; [right|left; exists 0; reflexivity].
    intros ops ss qs pre ev post _ Hev. assert (K : forall l n, exists n', after step6 l (inr n) = inr n') by (clear; unfold after; induction l as [|ev l IH]; intro n; [exists n; reflexivity|]; cbn [fold_left]; destruct ev; cbn [step6 fst]; apply IH).
    destruct (K pre 0) as [n' ->]. destruct ev; try contradiction; reflexivity.
  - split; [exact P1|]. exists s, moments. auto.
Qed.

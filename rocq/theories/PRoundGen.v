(** * PRoundGen: the generators with arithmetic that rounds give numbers *)
From Coq Require Import QArith Reals Lra Lia.
From Verif Require Import Np NpFacts MRing PRing MUtil MArith MStats MCache MEuclid MZnorm SReal SRound SGen PRound.
Set Implicit Arguments.
Open Scope nat_scope.

(** ** Everything in a list satisfies a predicate *)
Section All.
  Context {T : Type} (P : T -> Prop).
  Lemma all_firstn n l : Forall P l -> Forall P (firstn n l).
  Proof. rewrite !Forall_forall. intros H x Hx. apply H. rewrite <- (firstn_skipn n l). apply in_or_app. left. exact Hx. Qed.
  Lemma all_skipn n l : Forall P l -> Forall P (skipn n l).
  Proof. rewrite !Forall_forall. intros H x Hx. apply H. rewrite <- (firstn_skipn n l). apply in_or_app. right. exact Hx. Qed.
  Lemma all_lslice l a b : Forall P l -> Forall P (lslice l a b).
  Proof. intro H. apply all_firstn, all_skipn, H. Qed.
  Lemma all_slice l a b : Forall P l -> Forall P (slice l a b).
  Proof. apply all_lslice. Qed.
  Lemma all_slice_from l a : Forall P l -> Forall P (slice_from l a).
  Proof. apply all_skipn. Qed.
  Lemma all_splice l a v : Forall P l -> Forall P v -> Forall P (splice l a v).
  Proof. intros H H'. unfold splice. rewrite !Forall_app. split; [apply all_firstn, H|]. split; [exact H'|apply all_skipn, H]. Qed.
  Lemma all_repeat x n : P x -> Forall P (repeat x n).
  Proof. intro H. induction n; constructor; assumption. Qed.
  Lemma all_set_slice l a b v l' : Forall P l -> Forall P v -> set_slice l a b v = Ok l' -> Forall P l'.
  Proof.
    intros H H' E. unfold set_slice in E. destruct (_ =? _); [injection E as <-; apply all_splice; assumption|]. destruct v as [|x [|y v]]; try discriminate.
    injection E as <-. apply all_splice; [exact H|]. apply all_repeat. inversion H'. assumption.
  Qed.
  Lemma all_setitem l i x l' : Forall P l -> P x -> setitem l i x = Ok l' -> Forall P l'.
  Proof. intros H Hx E. unfold setitem in E. destruct (_ <? _); [|discriminate]. injection E as <-. apply all_splice; [exact H|]. constructor; [exact Hx|constructor]. Qed.
  Lemma all_getitem l i x : Forall P l -> getitem l i = Ok x -> P x.
  Proof. intros H E. unfold getitem in E. destruct (nth_error l i) eqn:En; [|discriminate]. injection E as <-. rewrite Forall_forall in H. apply H. eapply nth_error_In, En. Qed.
  Lemma all_lastn n l : Forall P l -> Forall P (lastn n l).
  Proof. apply all_skipn. Qed.
End All.
Lemma all_zip {S T U} (P : S -> Prop) (Q : T -> Prop) (V : U -> Prop) (f : S -> T -> U) : (forall x y, P x -> Q y -> V (f x y)) ->
  forall a b, Forall P a -> Forall Q b -> Forall V (zip_with f a b).
Proof. intros Hf a. induction a as [|x a IH]; intros [|y b] Ha Hb; try constructor; inversion Ha; inversion Hb; subst; [apply Hf; assumption|apply IH; assumption]. Qed.
Lemma all_bop {S T U} (P : S -> Prop) (Q : T -> Prop) (V : U -> Prop) (f : S -> T -> U) : (forall x y, P x -> Q y -> V (f x y)) ->
  forall a b c, Forall P a -> Forall Q b -> bop f a b = Ok c -> Forall V c.
Proof.
  intros Hf a b c Ha Hb E. unfold bop in E. destruct (_ =? _); [injection E as <-; eapply all_zip; eassumption|].
  assert (H1 : forall x, P x -> Forall V (map (f x) b)) by (intros x Hx; rewrite Forall_map; eapply Forall_impl; [|exact Hb]; intros y Hy; apply Hf; assumption).
  assert (H2 : forall y, Q y -> Forall V (map (fun x => f x y) a)) by (intros y Hy; rewrite Forall_map; eapply Forall_impl; [|exact Ha]; intros x Hx; apply Hf; assumption).
  destruct a as [|x [|x' a]].
  - destruct b as [|y [|y' b]]; try discriminate. injection E as <-. constructor.
  - injection E as <-. apply H1. inversion Ha. assumption.
  - destruct b as [|y [|y' b]]; try discriminate. injection E as <-. apply H2. inversion Hb. assumption.
Qed.

(** ** Ring buffers whose visible elements satisfy a predicate *)
Definition rbx {T} (P : T -> Prop) (b : rb T) : Prop := rb_ok b /\ 0 < rb_max b /\ Forall P (rb_view b).
Lemma rbx_push {T} (P : T -> Prop) b d b' k : rbx P b -> Forall P d -> rb_push b d = Ok (b', k) ->
  rbx P b' /\ rb_max b' = rb_max b /\ rb_view b' = lastn (rb_max b) (rb_view b ++ d).
Proof.
  intros (Ho & Hm & HV) Hd E. destruct (@rb_push_cases T b d Ho Hm) as [[_ E']|(_ & b'' & E' & Ho' & V' & _ & M')]; [congruence|].
  rewrite E in E'. injection E' as <- _. split; [|split; [exact M'|exact V']]. split; [exact Ho'|]. split; [lia|]. rewrite V'. apply all_lastn, Forall_app. split; assumption.
Qed.
Lemma rbx_empty {T} (P : T -> Prop) mem n sf b : (1 <= sf)%Q -> 0 < n -> @rb_new T mem None (Some n) true sf = Ok b -> rbx P b /\ rb_max b = n /\ rb_view b = [].
Proof.
  intros Hsf Hn E. cbn in E. destruct (@rb_alloc_spec T mem n sf Hsf) as (b' & E' & Ho & V & M & _). rewrite E in E'. injection E' as <-.
  split; [|split; [exact M|exact V]]. split; [exact Ho|]. split; [lia|]. rewrite V. constructor.
Qed.
Lemma rbx_data {T} (P : T -> Prop) mem d shape sf b : (1 <= sf)%Q -> 0 < match shape with Some n => n | None => length d end -> Forall P d ->
  @rb_new T mem (Some d) shape true sf = Ok b -> rbx P b.
Proof.
  intros Hsf Hn Hd E. unfold rb_new in E. set (n := match shape with Some n => n | None => length d end) in *. destruct (@rb_alloc_spec T mem n sf Hsf) as (b' & E' & Ho & V & M & _).
  rewrite E' in E. cbn [bind] in E. destruct (rb_push b' d) as [[b'' k]|] eqn:Ep; [|discriminate]. injection E as <-. cbn [fst]. eapply rbx_push; [|exact Hd|exact Ep].
  split; [exact Ho|]. split; [lia|]. rewrite V. constructor.
Qed.

Definition isfin (x : num R) : Prop := exists a, x = Fin a.
Definition nonneg (x : num R) : Prop := exists a, x = Fin a /\ (0 <= a)%R.
Lemma nonneg_fin x : nonneg x -> isfin x.
Proof. intros (a & -> & _). exists a. reflexivity. Qed.
Lemma all_fin l : Forall isfin (fin l).
Proof. rewrite Forall_map. apply Forall_forall. intros x _. exists x. reflexivity. Qed.

Section Rounded.
  Variable rnd : R -> R.
  Hypothesis HS : sane rnd.
  Local Instance NR : NumOps R := NumRnd rnd.

  Lemma rnd_int z : (Z.abs z <= 10 ^ 15)%Z -> rnd (IZR z) = IZR z.
  Proof. apply sane_ints, HS. Qed.
  Lemma rnd_0 : rnd 0 = 0%R.
  Proof. apply (rnd_int 0). vm_compute. discriminate. Qed.
  Lemma rnd_nonneg x : (0 <= x)%R -> (0 <= rnd x)%R.
  Proof. intro H. rewrite <- rnd_0. apply (sane_mono HS), H. Qed.
  Lemma rnd_ge1 x : (1 <= x)%R -> (1 <= rnd x)%R.
  Proof. intro H. rewrite <- (rnd_int 1) by (vm_compute; discriminate). apply (sane_mono HS), H. Qed.
  (** the constant 10^-k *)
  Lemma tiny k : (0 <= k <= 15)%Z -> exists t, fneg10 k = Fin t /\ (1 / IZR (10 ^ k) / 2 <= t)%R /\ (0 < t)%R.
  Proof.
    intro Hk. unfold fneg10. cbn. assert (B : (1 <= 10 ^ k <= 10 ^ 15)%Z) by (split; [apply (Z.pow_le_mono_r 10 0 k); lia|apply Z.pow_le_mono_r; lia]).
    rewrite (rnd_int 1), (rnd_int (10 ^ k)) by (rewrite Z.abs_eq; lia).
    eexists. split; [reflexivity|]. assert (P : (1 <= IZR (10 ^ k) <= 10 ^ 15)%R).
    { split; [apply (IZR_le 1); lia|]. rewrite pow_IZR. apply IZR_le. exact (proj2 B). }
    assert (I : (/ 10 ^ 15 <= 1 / IZR (10 ^ k))%R) by (unfold Rdiv; rewrite Rmult_1_l; apply Rinv_le_contravar; lra).
    assert (0 < / 10 ^ 15)%R by (apply Rinv_0_lt_compat, pow_lt; lra).
    assert (G : (1 / IZR (10 ^ k) / 2 <= rnd (1 / IZR (10 ^ k)))%R).
    { apply (sane_half HS). apply Rle_trans with (/ 10 ^ 15)%R; [|exact I]. apply Rinv_le_contravar; [apply pow_lt; lra|]. apply Rle_pow; [lra|lia]. }
    split; [exact G|lra].
  Qed.

  Lemma fadd_fin x y : isfin x -> isfin y -> isfin (fadd x y).
  Proof. intros (a & ->) (b & ->). eexists. reflexivity. Qed.
  Lemma fsub_fin x y : isfin x -> isfin y -> isfin (fsub x y).
  Proof. intros (a & ->) (b & ->). eexists. reflexivity. Qed.
  Lemma fmul_fin x y : isfin x -> isfin y -> isfin (fmul x y).
  Proof. intros (a & ->) (b & ->). eexists. reflexivity. Qed.
  Lemma fadd_nonneg x y : nonneg x -> nonneg y -> nonneg (fadd x y).
  Proof. intros (a & -> & Ha) (b & -> & Hb). eexists. split; [reflexivity|]. apply rnd_nonneg. lra. Qed.
  Lemma fsquare_nonneg x : isfin x -> nonneg (fsquare x).
  Proof. intros (a & ->). eexists. split; [reflexivity|]. apply rnd_nonneg. nra. Qed.
  Lemma fold_fin l : forall x, isfin x -> Forall isfin l -> isfin (fold_left fadd l x).
  Proof. induction l as [|y l IH]; intros x Hx Hl; cbn; [exact Hx|]. inversion Hl; subst. apply IH; [apply fadd_fin; assumption|assumption]. Qed.
  Lemma fold_nonneg l : forall x, nonneg x -> Forall nonneg l -> nonneg (fold_left fadd l x).
  Proof. induction l as [|y l IH]; intros x Hx Hl; cbn; [exact Hx|]. inversion Hl; subst. apply IH; [apply fadd_nonneg; assumption|assumption]. Qed.
  Lemma fzero_nonneg : nonneg fzero.
  Proof. exists 0%R. split; [reflexivity|cbn; lra]. Qed.
  Lemma fsum_fin l : Forall isfin l -> isfin (fsum l).
  Proof. apply fold_fin. exists 0%R. reflexivity. Qed.
  Lemma fsum_nonneg l : Forall nonneg l -> nonneg (fsum l).
  Proof. apply fold_nonneg, fzero_nonneg. Qed.
  Lemma fdot_fin a b : Forall isfin a -> Forall isfin b -> isfin (fdot a b).
  Proof. intros Ha Hb. apply fsum_fin. eapply all_zip; [|exact Ha|exact Hb]. apply fmul_fin. Qed.
  Lemma fofZ_fin z : isfin (fofZ z).
  Proof. eexists. reflexivity. Qed.
  Lemma fdiv_pos a b : (0 < b)%R -> fdiv (Fin a) (Fin b) = Fin (rnd (a / b)).
  Proof. intro H. cbn. unfold Rltb at 2. destruct (Rlt_dec 0 b); [|contradiction]. rewrite orb_true_r. reflexivity. Qed.
  Lemma count_pos (n : nat) : 0 < n -> exists k, fofZ (Z.of_nat n) = Fin k /\ (1 <= k)%R.
  Proof. intro H. eexists. split; [reflexivity|]. apply rnd_ge1. apply (IZR_le 1). lia. Qed.
  Lemma np_mean_fin l : 0 < length l -> Forall isfin l -> isfin (np_mean l).
  Proof.
    intros L H. unfold np_mean. destruct (fsum_fin H) as (a & ->). destruct (count_pos L) as (k & -> & Hk). rewrite fdiv_pos by lra. eexists. reflexivity.
  Qed.
  Lemma np_mean_nonneg l : 0 < length l -> Forall nonneg l -> nonneg (np_mean l).
  Proof.
    intros L H. unfold np_mean. destruct (fsum_nonneg H) as (a & -> & Ha). destruct (count_pos L) as (k & -> & Hk). rewrite fdiv_pos by lra. eexists. split; [reflexivity|].
    apply rnd_nonneg. apply Rmult_le_pos; [exact Ha|]. left. apply Rinv_0_lt_compat. lra.
  Qed.
  Lemma froot_nonneg x : nonneg x -> nonneg (froot x).
  Proof.
    intros (a & -> & Ha). unfold froot, fsqrt. cbn. unfold Rltb. destruct (Rlt_dec a 0); [lra|]. eexists. split; [reflexivity|]. apply rnd_nonneg, sqrt_pos.
  Qed.
  Lemma np_std_nonneg l : 0 < length l -> Forall isfin l -> nonneg (np_std l).
  Proof.
    intros L H. apply froot_nonneg, np_mean_nonneg; [rewrite map_length; exact L|]. rewrite Forall_map. eapply Forall_impl; [|exact H]. intros x Hx. apply fsquare_nonneg, fsub_fin; [exact Hx|]. apply np_mean_fin; assumption.
  Qed.

  Lemma windows_fin l m ws : Forall isfin l -> windows l m = Ok ws -> Forall (fun w => 0 < length w /\ Forall isfin w) ws.
  Proof.
    intros H E. unfold windows in E. destruct (Nat.eqb_spec m 0); cbn [orb] in E; [discriminate|]. destruct (Nat.ltb_spec (length l) m); [discriminate|]. injection E as <-.
    rewrite Forall_map. apply Forall_forall. intros i Hi. apply in_seq in Hi. split; [rewrite firstn_length, skipn_length; lia|apply all_firstn, all_skipn, H].
  Qed.
  Lemma sliding_fin_rnd l m mu sd : Forall isfin l -> sliding_mean_std l m = Ok (mu, sd) -> Forall isfin mu /\ Forall isfin sd.
  Proof.
    intros H E. unfold sliding_mean_std, sliding_mean_with in E. destruct (_ <=? _)%Z; [discriminate|]. destruct (negb _); [discriminate|].
    destruct (windows l (Z.to_nat m)) as [ws|] eqn:Ew; [|discriminate]. injection E as <- <-. pose proof (@windows_fin l _ ws H Ew) as HW.
    split; rewrite Forall_map; (eapply Forall_impl; [|exact HW]); intros w [L Hw]; [apply np_mean_fin; assumption|apply nonneg_fin, np_std_nonneg; assumption].
  Qed.

  (** ** One cell *)
  Lemma THR : exists t, @THRESHOLD R NR = Fin t /\ (/ 10 ^ 7 <= t)%R.
  Proof.
    destruct (@tiny 6) as (t & E & H & _); [lia|]. exists t. split; [exact E|]. eapply Rle_trans; [|exact H]. change (10 ^ 6)%Z with 1000000%Z. lra.
  Qed.
  Lemma EPS_pos : exists e, @EPS R NR = Fin e /\ (0 < e)%R.
  Proof. destruct (@tiny 12) as (e & E & _ & H); [lia|]. exists e. split; assumption. Qed.
  Lemma EPSILON_pos : exists e, @EPSILON R NR = Fin e /\ (0 < e)%R.
  Proof. destruct (@tiny 15) as (e & E & _ & H); [lia|]. exists e. split; assumption. Qed.
  Lemma root_clip d : isfin d -> nonneg (froot (if fltb d EPS then fzero else d)).
  Proof.
    intros (a & ->). destruct EPS_pos as (e & -> & He). apply froot_nonneg. cbn. unfold Rltb. destruct (Rlt_dec a e); [apply fzero_nonneg|]. exists a. split; [reflexivity|]. lra.
  Qed.
  Lemma big_product x y : (/ 10 ^ 7 <= x)%R -> (/ 10 ^ 7 <= y)%R -> (0 < rnd (x * y))%R.
  Proof.
    intros Hx Hy. assert (P : (/ 10 ^ 14 <= x * y)%R).
    { replace (/ 10 ^ 14)%R with (/ 10 ^ 7 * / 10 ^ 7)%R by field. assert (0 < / 10 ^ 7)%R by (apply Rinv_0_lt_compat, pow_lt; lra). apply Rmult_le_compat; lra. }
    assert (0 < / 10 ^ 14)%R by (apply Rinv_0_lt_compat, pow_lt; lra).
    apply Rlt_le_trans with (x * y / 2)%R; [lra|]. apply (sane_half HS). eapply Rle_trans; [|exact P]. apply Rinv_le_contravar; [apply pow_lt; lra|apply Rle_pow; [lra|lia]].
  Qed.

  (** The statistics of one subsequence: finite, and the flag tells whether the standard deviation is above the threshold *)
  Definition stat_fin (q : stat (A := R)) : Prop := let '(mu, sd, nz) := q in isfin mu /\ isfin sd /\ nz = fltb THRESHOLD sd.
  Lemma above sd : isfin sd -> fltb THRESHOLD sd = true -> exists s, sd = Fin s /\ (/ 10 ^ 7 <= s)%R.
  Proof.
    intros (s & ->). destruct THR as (t & -> & Ht). cbn. unfold Rltb. destruct (Rlt_dec t s); [|discriminate]. intros _. exists s. split; [reflexivity|lra].
  Qed.
  Lemma formula_fin m dot mq ms sq ss : isfin m -> isfin dot -> isfin mq -> isfin ms -> isfin sq -> isfin ss -> fltb THRESHOLD sq = true -> fltb THRESHOLD ss = true -> isfin (formula m dot mq ms sq ss).
  Proof.
    intros Hm Hd Hq Hs Hsq Hss Gq Gs. destruct (above Hsq Gq) as (x & -> & Hx). destruct (above Hss Gs) as (y & -> & Hy).
    unfold formula. apply fmul_fin; [apply fofZ_fin|]. apply fsub_fin; [exact Hm|].
    destruct (fsub_fin Hd (fmul_fin (fmul_fin Hm Hq) Hs)) as (a & ->). change (fmul (Fin x) (Fin y)) with (Fin (rnd (x * y))). rewrite fdiv_pos by (apply big_product; assumption). eexists. reflexivity.
  Qed.
  Lemma correction_fin m noise a b : isfin m -> isfin noise -> isfin a -> isfin b -> fltb THRESHOLD a = true \/ fltb THRESHOLD b = true -> isfin (correction m noise a b).
  Proof.
    intros Hm Hn Ha Hb HT. unfold correction. destruct (fmul_fin (fmul_fin (fofZ_fin 2) (fadd_fin Hm (fofZ_fin 1))) (nonneg_fin (fsquare_nonneg Hn))) as (z & ->).
    assert (M : exists x, fmaximum a b = Fin x /\ (/ 10 ^ 7 <= x)%R).
    { destruct Ha as (x & ->), Hb as (y & ->). unfold fmaximum. cbn [isnan]. cbn [fltb]. cbn. destruct THR as (t & Et & Ht). rewrite Et in HT. cbn in HT. revert HT. unfold Rltb.
      destruct (Rlt_dec x y), (Rlt_dec t x), (Rlt_dec t y); intros [HT|HT]; try discriminate; eexists; (split; [reflexivity|lra]). }
    destruct M as (x & -> & Hx). change (fsquare (Fin x)) with (Fin (rnd (x * x))). rewrite fdiv_pos by (apply big_product; assumption). eexists. reflexivity.
  Qed.
  Lemma diag_cell_nonneg m noise dot q s : isfin m -> isfin noise -> isfin dot -> stat_fin q -> stat_fin s -> nonneg (diag_cell m noise dot q s).
  Proof.
    destruct q as [[mq sq] nq], s as [[ms ss] ns]. intros Hm Hn Hd (Q1 & Q2 & ->) (S1 & S2 & ->). unfold diag_cell. apply root_clip.
    set (d := if fltb THRESHOLD sq && fltb THRESHOLD ss then _ else _). assert (Hd' : isfin d).
    { unfold d. destruct (fltb THRESHOLD sq) eqn:G1, (fltb THRESHOLD ss) eqn:G2; cbn [andb xorb]; [apply formula_fin; assumption|exact Hm|exact Hm|eexists; reflexivity]. }
    destruct (negb _); [|exact Hd']. destruct (fltb THRESHOLD sq || fltb THRESHOLD ss) eqn:Go; [|exact Hd']. apply fsub_fin; [exact Hd'|]. apply orb_true_iff in Go. apply correction_fin; try assumption. tauto.
  Qed.
  Lemma col_cell_nonneg m noise s dot q : isfin m -> isfin noise -> isfin dot -> stat_fin q -> stat_fin s -> nonneg (col_cell m noise s dot q).
  Proof.
    destruct q as [[mq sq] nq], s as [[ms ss] ns]. intros Hm Hn Hd (Q1 & Q2 & ->) (S1 & S2 & ->). unfold col_cell. apply root_clip.
    set (d := if fltb THRESHOLD ss then _ else _). assert (Hd' : isfin d).
    { unfold d. destruct (fltb THRESHOLD ss) eqn:G1, (fltb THRESHOLD sq) eqn:G2; [apply formula_fin; assumption|exact Hm|exact Hm|eexists; reflexivity]. }
    destruct (negb _); [|exact Hd']. destruct (fltb THRESHOLD ss || fltb THRESHOLD sq) eqn:Go; [|exact Hd']. apply fsub_fin; [exact Hd'|]. apply orb_true_iff in Go. apply correction_fin; try assumption.
  Qed.

  (** ** The cached calculation of columns *)
  Section CacheFin.
    Variable full : list (num R) -> list (num R) -> res (list (num R)).
    Variable term : num R -> num R -> num R.
    Hypothesis Hfull : forall a b v, Forall isfin a -> Forall isfin b -> full a b = Ok v -> Forall isfin v.
    Hypothesis Hterm : forall x y, isfin x -> isfin y -> isfin (term x y).

    Definition cfin (g : @cache R) : Prop :=
      0 < ch_m g /\ ch_m g <= rb_max (ch_series g) /\ rbx isfin (ch_series g) /\ (ch_self g = false -> rbx isfin (ch_qbuf g)) /\
      (forall b, ch_first g = Some b -> rbx isfin b) /\ Forall isfin (ch_vals g).
    Lemma cfin_mk g : 0 < ch_m g -> ch_m g <= rb_max (ch_series g) -> rbx isfin (ch_series g) -> (ch_self g = false -> rbx isfin (ch_qbuf g)) ->
      (forall b, ch_first g = Some b -> rbx isfin b) -> Forall isfin (ch_vals g) -> cfin g.
    Proof. unfold cfin. tauto. Qed.
    Lemma cfin_query g : cfin g -> Forall isfin (rb_view (ch_query g)).
    Proof. intros (_ & _ & (_ & _ & H1) & H2 & _). unfold ch_query. destruct (ch_self g); [exact H1|]. destruct (H2 eq_refl) as (_ & _ & H). exact H. Qed.

    Lemma cfin_append_s g d g' : cfin g -> Forall isfin d -> cache_append_s g d = Ok g' -> cfin g' /\ ch_m g' = ch_m g /\ ch_self g' = ch_self g.
    Proof.
      clear full term Hfull Hterm.
      intros (H1 & H2 & H3 & H4 & H5 & H6) Hd E. unfold cache_append_s in E. apply bind_ok in E. destruct E as ([s k] & Ep & E). cbn [fst snd] in E.
      destruct (rbx_push H3 Hd Ep) as (P1 & P2 & _). destruct (ch_self g) eqn:Es; injection E as <-; (split; [|split; reflexivity]).
      - apply cfin_mk; cbn [ch_m ch_series ch_self ch_qbuf ch_first ch_vals]; [assumption|lia|exact P1|discriminate| |assumption]. first [exact H5|destruct (k =? 0); [exact H5|discriminate]].
      - apply cfin_mk; cbn [ch_m ch_series ch_self ch_qbuf ch_first ch_vals]; [assumption|lia|exact P1|exact H4| |assumption]. first [exact H5|destruct (k =? 0); [exact H5|discriminate]].
    Qed.
    Lemma cfin_append_q g d g' : cfin g -> ch_self g = false -> Forall isfin d -> cache_append_q g d = Ok g' -> cfin g' /\ ch_m g' = ch_m g /\ ch_self g' = ch_self g.
    Proof.
      clear full term Hfull Hterm.
      intros (H1 & H2 & H3 & H4 & H5 & H6) Es Hd E. unfold cache_append_q in E. apply bind_ok in E. destruct E as ([s k] & Ep & E). cbn [fst snd] in E.
      destruct (rbx_push (H4 Es) Hd Ep) as (P1 & P2 & _). injection E as <-. split; [|split; reflexivity].
      apply cfin_mk; cbn [ch_m ch_series ch_self ch_qbuf ch_first ch_vals]; [assumption|assumption|exact H3|intros _; exact P1| |assumption]. destruct (k =? 0); [exact H5|discriminate].
    Qed.
    Lemma cfin_first mem g b : cfin g -> cache_first full mem g = Ok b -> rbx isfin b.
    Proof.
      intros C E. pose proof (cfin_query C) as HQ. destruct C as (H1 & H2 & H3 & H4 & H5 & H6). pose proof H3 as (_ & _ & HV). unfold cache_first in E. destruct (ch_first g) as [b0|].
      - destruct (0 <? ch_backlog g); [|injection E as <-; apply H5; reflexivity]. apply bind_ok in E. destruct E as (d & Ed & E). apply bind_ok in E. destruct E as ([b' k] & Ep & E). injection E as <-. cbn [fst].
        eapply rbx_push; [apply H5; reflexivity| |exact Ep]. eapply Hfull; [| |exact Ed]; [apply all_slice_from, HV|apply all_lslice, HQ].
      - apply bind_ok in E. destruct E as (d & Ed & E). eapply rbx_data; [| | |exact E]; [vm_compute; discriminate|cbn; lia|]. eapply Hfull; [| |exact Ed]; [exact HV|apply all_lslice, HQ].
    Qed.
    Lemma cfin_col mem g c g' v : cfin g -> cache_col full term mem g c = Ok (g', v) -> cfin g' /\ Forall isfin v /\ ch_m g' = ch_m g /\ ch_self g' = ch_self g /\ rb_view (ch_query g') = rb_view (ch_query g).
    Proof.
      intros C E. pose proof (cfin_query C) as HQ. pose proof C as (H1 & H2 & H3 & H4 & H5 & H6). pose proof H3 as (_ & _ & HV). unfold cache_col in E. apply bind_ok in E. destruct E as ([[fi bl] v0] & E0 & E). injection E as <- <-.
      assert (G : (forall b, fi = Some b -> rbx isfin b) /\ Forall isfin v0).
      { destruct (negb _ || _).
        - apply bind_ok in E0. destruct E0 as (v & Ev & E0). injection E0 as <- <- <-. split; [exact H5|]. eapply Hfull; [| |exact Ev]; [exact HQ|apply all_lslice, HV].
        - apply bind_ok in E0. destruct E0 as (fr & Ef & E0). apply bind_ok in E0. destruct E0 as (sb & Esb & E0). apply bind_ok in E0. destruct E0 as (ad & Ead & E0).
          apply bind_ok in E0. destruct E0 as (v1 & E1 & E0). apply bind_ok in E0. destruct E0 as (v2 & E2 & E0). apply bind_ok in E0. destruct E0 as (v3 & E3 & E0).
          apply bind_ok in E0. destruct E0 as (f & E4 & E0). apply bind_ok in E0. destruct E0 as (v & Ev & E0). injection E0 as <- _ <-.
          pose proof (@cfin_first mem g fr C Ef) as HF. split; [intros b Eb; injection Eb as <-; exact HF|].
          pose proof (all_getitem _ HV Esb) as Hsb. pose proof (all_getitem _ HV Ead) as Had. destruct HF as (_ & _ & HF). pose proof (all_getitem _ HF E4) as H7.
          assert (F1 : Forall isfin v1).
          { eapply all_bop; [|apply all_slice, H6| |exact E1]; [apply fsub_fin|]. rewrite Forall_map. eapply Forall_impl; [|apply all_slice, HQ]. intros y Hy. apply Hterm; assumption. }
          assert (F2 : Forall isfin v2).
          { eapply all_bop; [|exact F1| |exact E2]; [apply fadd_fin|]. rewrite Forall_map. eapply Forall_impl; [|apply all_skipn, HQ]. intros y Hy. apply Hterm; assumption. }
          eapply all_setitem; [|exact H7|exact Ev]. eapply all_set_slice; [exact H6|exact F2|exact E3]. }
      destruct G as [G1 G2]. split; [|split; [exact G2|split; [|split]]; reflexivity]. apply cfin_mk; cbn [ch_m ch_series ch_self ch_qbuf ch_first ch_vals]; assumption.
    Qed.
  End CacheFin.

  (** ** The z-normalised generator *)
  Lemma dot_products_fin a b v : Forall isfin a -> Forall isfin b -> dot_products a b = Ok v -> Forall isfin v.
  Proof.
    intros Ha Hb E. unfold dot_products, convolve_valid in E. assert (Hr : Forall isfin (rev b)) by (apply Forall_rev, Hb).
    set (vol := if length a <? length (rev b) then rev b else a) in *. set (ker := if length a <? length (rev b) then a else rev b) in *.
    assert (Hvol : Forall isfin vol) by (unfold vol; destruct (_ <? _); assumption). assert (Hker : Forall isfin ker) by (unfold ker; destruct (_ <? _); assumption).
    destruct (_ =? _); [discriminate|]. injection E as <-. rewrite Forall_map. apply Forall_forall. intros i _. apply fdot_fin; [apply all_firstn, all_skipn, Hvol|apply Forall_rev, Hker].
  Qed.
  Definition zsfin (z : @zstats R) : Prop :=
    rbx isfin (zs_mu z) /\ rbx isfin (zs_std z) /\ rbx (fun _ => True) (zs_nz z) /\ rb_max (zs_nz z) = rb_max (zs_std z) /\ rb_view (zs_nz z) = map (fltb THRESHOLD) (rb_view (zs_std z)).
  Definition zfin (g : @zn R) : Prop := cfin (zn_c g) /\ isfin (zn_noise g) /\ zsfin (zn_s g) /\ (ch_self (zn_c g) = false -> zsfin (zn_q g)).
  Lemma zfin_qstats g : zfin g -> zsfin (zn_qstats g).
  Proof. intros (_ & _ & H1 & H2). unfold zn_qstats. destruct (ch_self (zn_c g)); [exact H1|apply H2; reflexivity]. Qed.
  Lemma all_any {T} (l : list T) : Forall (fun _ => True) l.
  Proof. apply Forall_forall. trivial. Qed.
  Lemma lastn_map {T U} (f : T -> U) n l : lastn n (map f l) = map f (lastn n l).
  Proof. unfold lastn. rewrite map_length. apply skipn_map. Qed.
  Lemma zsfin_append m view n z z' : Forall isfin view -> zsfin z -> zstats_append m view n z = Ok z' -> zsfin z'.
  Proof.
    intros HV (Z1 & Z2 & Z3 & Z4 & Z5) E. unfold zstats_append in E. destruct (m <=? length view); [|injection E as <-; unfold zsfin; tauto].
    apply bind_ok in E. destruct E as ([mu sd] & E0 & E). cbn [fst snd] in E. destruct (@sliding_fin_rnd _ _ _ _ (all_slice_from _ HV) E0) as [F1 F2].
    apply bind_ok in E. destruct E as ([b1 k1] & E1 & E). apply bind_ok in E. destruct E as ([b2 k2] & E2 & E). apply bind_ok in E. destruct E as ([b3 k3] & E3 & E). injection E as <-. cbn [fst].
    destruct (rbx_push Z1 F1 E1) as (P1 & _). destruct (rbx_push Z2 F2 E2) as (P2 & M2 & V2). destruct (rbx_push Z3 (all_any _) E3) as (P3 & M3 & V3).
    unfold zsfin. cbn [zs_mu zs_std zs_nz]. split; [exact P1|]. split; [exact P2|]. split; [exact P3|]. split; [congruence|]. rewrite V3, V2, Z4, Z5, <- map_app, lastn_map. reflexivity.
  Qed.
  Lemma zfin_append_series g d g' : zfin g -> Forall isfin d -> zn_append_series g d = Ok g' -> zfin g'.
  Proof.
    intros (C & N & S & Q) Hd E. unfold zn_append_series in E. destruct (_ =? 0); [injection E as <-; unfold zfin; tauto|].
    apply bind_ok in E. destruct E as (c & Ec & E). apply bind_ok in E. destruct E as (zs & Ez & E). injection E as <-.
    destruct (cfin_append_s C Hd Ec) as (C' & _ & Es). split; [exact C'|]. split; [exact N|]. cbn [zn_c zn_s zn_q]. split; [|rewrite Es; exact Q].
    eapply zsfin_append; [|exact S|exact Ez]. destruct C' as (_ & _ & (_ & _ & H) & _). exact H.
  Qed.
  Lemma zfin_append_query g d g' : zfin g -> Forall isfin d -> zn_append_query g d = Ok g' -> zfin g'.
  Proof.
    intros (C & N & S & Q) Hd E. unfold zn_append_query in E. destruct (ch_self (zn_c g)) eqn:Es; [discriminate|]. destruct (_ =? 0); [injection E as <-; split; [exact C|]; split; [exact N|]; split; [exact S|]; intros _; apply Q; reflexivity|].
    apply bind_ok in E. destruct E as (c & Ec & E). apply bind_ok in E. destruct E as (zs & Ez & E). injection E as <-.
    destruct (cfin_append_q C Es Hd Ec) as (C' & _ & Es'). split; [exact C'|]. split; [exact N|]. cbn [zn_c zn_s zn_q]. split; [exact S|]. intros _.
    eapply zsfin_append; [|apply Q; reflexivity|exact Ez]. destruct C' as (_ & _ & _ & H & _). destruct H as (_ & _ & H); [congruence|exact H].
  Qed.
  Lemma stats_of_fin n mu sd nz l : Forall isfin mu -> Forall isfin sd -> nz = map (fltb THRESHOLD) sd -> stats_of n mu sd nz = Ok l -> Forall stat_fin l.
  Proof.
    intros H1 H2 -> E. unfold stats_of in E. destruct (_ && _); [|discriminate]. injection E as <-.
    revert mu H1. induction H2 as [|s sd Hs H2 IH]; intros mu H1; [destruct mu; constructor|]. destruct H1 as [|x mu Hx H1]; [constructor|]. cbn. constructor; [|apply IH, H1]. split; [exact Hx|]. split; [exact Hs|reflexivity].
  Qed.
  Lemma slice_map {T U} (f : T -> U) l a b : slice (map f l) a b = map f (slice l a b).
  Proof. unfold slice, lslice. rewrite map_length, skipn_map, firstn_map. reflexivity. Qed.

  Lemma cumsum_from_fin l : forall x, isfin x -> Forall isfin l -> Forall isfin (cumsum_from x l).
  Proof. induction l as [|y l IH]; intros x Hx Hl; cbn; [constructor|]. inversion Hl; subst. pose proof (fadd_fin Hx H1). constructor; [assumption|apply IH; assumption]. Qed.
  Lemma cumsum_fin l : Forall isfin l -> Forall isfin (cumsum l).
  Proof. intros [|x l' Hx Hl]; cbn; [constructor|]. constructor; [exact Hx|apply cumsum_from_fin; assumption]. Qed.

  Lemma zn_col_fin mem g c g' ds : zfin g -> zn_calc_column mem g c = Ok (g', ds) -> zfin g' /\ Forall nonneg ds.
  Proof.
    intros Z E. pose proof (zfin_qstats Z) as (Q1 & Q2 & Q3 & Q4 & Q5). pose proof Z as (C & N & S & Q). pose proof S as (S1 & S2 & S3 & S4 & S5). unfold zn_calc_column in E. destruct (_ <? _); [discriminate|].
    apply bind_ok in E. destruct E as ([c' v] & Ec & E). cbn [fst snd] in E. apply bind_ok in E. destruct E as (mu & Em & E). apply bind_ok in E. destruct E as (sd & Es & E). apply bind_ok in E. destruct E as (nz & En & E).
    apply bind_ok in E. destruct E as (sq & Eq & E). destruct (_ =? _); [|discriminate]. injection E as <- <-.
    destruct (@cfin_col dot_products fmul dot_products_fin fmul_fin mem (zn_c g) c c' v C Ec) as (C' & Fv & _ & Es' & _). split; [split; [exact C'|]; split; [exact N|]; split; [exact S|]; cbn [zn_c]; rewrite Es'; exact Q|].
    eapply all_zip; [|exact Fv|]; [intros x y Hx Hy; apply col_cell_nonneg; [apply fofZ_fin|exact N|exact Hx|exact Hy|]|].
    - destruct S1 as (_ & _ & S1), S2 as (_ & _ & S2). split; [exact (all_getitem _ S1 Em)|]. split; [exact (all_getitem _ S2 Es)|].
      rewrite S5 in En. unfold getitem in En, Es. rewrite nth_error_map in En. destruct (nth_error (rb_view (zs_std (zn_s g))) c); [|discriminate]. cbn [option_map] in En. injection Es as ->. injection En as <-. reflexivity.
    - eapply stats_of_fin; [| | |exact Eq]; [apply Q1|apply Q2|exact Q5].
  Qed.
  Lemma zn_diag_fin g d g' ds : zfin g -> zn_calc_diagonal g d = Ok (g', ds) -> g' = g /\ Forall nonneg ds.
  Proof.
    intros Z E. pose proof (zfin_qstats Z) as (Q1 & Q2 & Q3 & Q4 & Q5). pose proof Z as (C & N & S & Q). pose proof S as (S1 & S2 & S3 & S4 & S5). unfold zn_calc_diagonal in E.
    destruct (_ <? 0)%Z; [discriminate|]. apply bind_ok in E. destruct E as (pr & Ep & E). apply bind_ok in E. destruct E as (dp & Ed & E). apply bind_ok in E. destruct E as (sq & Eq & E). apply bind_ok in E. destruct E as (ss & Ess & E).
    destruct (_ =? _); [|discriminate]. injection E as <- <-. split; [reflexivity|].
    pose proof (cfin_query C) as HQ. destruct C as (_ & _ & (_ & _ & HV) & _).
    assert (Fp : Forall isfin pr) by (destruct (0 <=? d)%Z; (eapply all_bop; [|apply all_slice; exact HQ|apply all_slice; exact HV|exact Ep]; apply fmul_fin)).
    assert (Fc : Forall isfin (fzero :: cumsum pr)) by (constructor; [eexists; reflexivity|apply cumsum_fin, Fp]).
    assert (Fd : Forall isfin dp) by (eapply all_bop; [|apply all_slice; exact Fc|apply all_slice; exact Fc|exact Ed]; apply fsub_fin).
    assert (Fq : Forall stat_fin sq) by (eapply stats_of_fin; [| | |exact Eq]; [apply all_slice, Q1|apply all_slice, Q2|rewrite Q5, slice_map; reflexivity]).
    assert (Fs : Forall stat_fin ss) by (eapply stats_of_fin; [| | |exact Ess]; [apply all_slice, S1|apply all_slice, S2|rewrite S5, slice_map; reflexivity]).
    apply all_zip with (P := isfin) (Q := fun p => stat_fin (fst p) /\ stat_fin (snd p)); [|exact Fd|].
    - intros x [q s] Hx [Hq Hs]. apply diag_cell_nonneg; [apply fofZ_fin|exact N|exact Hx|exact Hq|exact Hs].
    - clear - Fq Fs. revert ss Fs. induction Fq as [|q sq Hq Fq IH]; intros ss Fs; [constructor|]. destruct Fs as [|s ss Hs Fs]; cbn; [constructor|]. constructor; [split; assumption|apply IH, Fs].
  Qed.
  Lemma zn_single_fin g row c dot x : zfin g -> (forall d, dot = Some d -> isfin d) -> zn_calc_single g row c dot = Ok x -> nonneg x.
  Proof.
    intros Z Hdot E. pose proof (zfin_qstats Z) as (Q1 & Q2 & _). pose proof Z as (C & N & S & _). pose proof S as (S1 & S2 & _). pose proof (cfin_query C) as HQ. destruct C as (_ & _ & (_ & _ & HV) & _).
    unfold zn_calc_single in E. apply bind_ok in E. destruct E as (sq & Eq & E). apply bind_ok in E. destruct E as (ss & Es & E).
    destruct Q1 as (_ & _ & Q1), Q2 as (_ & _ & Q2), S1 as (_ & _ & S1), S2 as (_ & _ & S2). pose proof (all_getitem _ Q2 Eq) as Hq. pose proof (all_getitem _ S2 Es) as Hs.
    assert (Fl : forall s, isfin s -> fleb s THRESHOLD = negb (fltb THRESHOLD s)) by (intros s (y & ->); destruct THR as (t & -> & _); reflexivity).
    rewrite (Fl _ Hq), (Fl _ Hs) in E.
    assert (K : forall d, isfin d -> fltb THRESHOLD sq = true \/ fltb THRESHOLD ss = true ->
      Ok (if fltb (if negb (feqb (zn_noise g) fzero) then fsub d (correction (fofZ (Z.of_nat (ch_m (zn_c g)))) (zn_noise g) ss sq) else d) EPS then fzero
          else froot (if negb (feqb (zn_noise g) fzero) then fsub d (correction (fofZ (Z.of_nat (ch_m (zn_c g)))) (zn_noise g) ss sq) else d)) = Ok x -> nonneg x).
    { intros d Hd HT Ex. injection Ex as <-. set (d' := if negb _ then _ else _) in *.
      assert (Hd' : isfin d') by (unfold d'; destruct (negb _); [apply fsub_fin; [exact Hd|]; apply correction_fin; [apply fofZ_fin|exact N|exact Hs|exact Hq|tauto]|exact Hd]).
      pose proof (root_clip Hd') as R. destruct (fltb d' EPS); [apply fzero_nonneg|exact R]. }
    destruct (fltb THRESHOLD sq) eqn:G1, (fltb THRESHOLD ss) eqn:G2; cbn [negb andb orb] in E.
    - apply bind_ok in E. destruct E as (d & Ed & E). refine (K d _ _ E); [|tauto]. apply bind_ok in Ed. destruct Ed as (dt & Edt & Ed). apply bind_ok in Ed. destruct Ed as (mq & Emq & Ed). apply bind_ok in Ed. destruct Ed as (ms & Ems & Ed). injection Ed as <-.
      assert (Hdt : isfin dt).
      { destruct (match dot with None => true | Some d => feqb d fzero end).
        - apply bind_ok in Edt. destruct Edt as (p & Ep & Edt). injection Edt as <-. apply fsum_fin. eapply all_bop; [|apply all_lslice, HQ|apply all_lslice, HV|exact Ep]. apply fmul_fin.
        - destruct dot as [dt'|]; [|discriminate]. injection Edt as <-. apply Hdot. reflexivity. }
      apply formula_fin; try assumption; [apply fofZ_fin|exact (all_getitem _ Q1 Emq)|exact (all_getitem _ S1 Ems)].
    - refine (K _ _ _ E); [apply fofZ_fin|tauto].
    - refine (K _ _ _ E); [apply fofZ_fin|tauto].
    - injection E as <-. apply fzero_nonneg.
  Qed.
  Lemma zfin_empty mem memb noise sf m W Wq g : 0 < m -> m <= W -> (forall w, Wq = Some w -> m <= w) -> (1 <= sf)%Q -> isfin noise -> zn_empty mem memb noise sf m W Wq = Ok g -> zfin g.
  Proof.
    intros Hm HW Hq Hsf Hn E. unfold zn_empty in E. apply bind_ok in E. destruct E as (s & Es & E). apply bind_ok in E. destruct E as (zs & Ez & E).
    assert (K : forall n z, 0 < n -> zstats_new mem memb sf n = Ok z -> zsfin z).
    { intros n z Hn0 Ez0. unfold zstats_new in Ez0. apply bind_ok in Ez0. destruct Ez0 as (b1 & E1 & Ez0). apply bind_ok in Ez0. destruct Ez0 as (b2 & E2 & Ez0). apply bind_ok in Ez0. destruct Ez0 as (b3 & E3 & Ez0). injection Ez0 as <-.
      destruct (@rbx_empty _ isfin _ _ _ _ Hsf Hn0 E1) as (P1 & _). destruct (@rbx_empty _ isfin _ _ _ _ Hsf Hn0 E2) as (P2 & M2 & V2). destruct (@rbx_empty _ (fun _ => True) _ _ _ _ Hsf Hn0 E3) as (P3 & M3 & V3).
      unfold zsfin. cbn [zs_mu zs_std zs_nz]. split; [exact P1|]. split; [exact P2|]. split; [exact P3|]. split; [congruence|]. rewrite V2, V3. reflexivity. }
    assert (HW' : 0 < W) by lia. destruct (@rbx_empty _ isfin _ _ _ _ Hsf HW' Es) as (P1 & M1 & _).
    destruct Wq as [qw|].
    - apply bind_ok in E. destruct E as (q & Eq & E). apply bind_ok in E. destruct E as (zq & Ezq & E). injection E as <-. assert (Hqw : m <= qw) by (apply Hq; reflexivity). assert (Hqw' : 0 < qw) by lia.
      destruct (@rbx_empty _ isfin _ _ _ _ Hsf Hqw' Eq) as (P2 & M2 & _). split; [|split; [exact Hn|split; [eapply K; [|exact Ez]; lia|intros _; eapply K; [|exact Ezq]; lia]]].
      apply cfin_mk; cbn [zn_c cache_new ch_m ch_series ch_self ch_qbuf ch_first ch_vals]; [lia|lia|exact P1|intros _; exact P2|discriminate|constructor].
    - injection E as <-. split; [|split; [exact Hn|split; [eapply K; [|exact Ez]; lia|discriminate]]].
      apply cfin_mk; cbn [zn_c cache_new ch_m ch_series ch_self ch_qbuf ch_first ch_vals]; [lia|lia|exact P1|discriminate|discriminate|constructor].
  Qed.
  Definition finite_call (o : gcall (num R)) : Prop := match o with CSeries xs | CQuery xs => Forall isfin xs | _ => True end.
  Lemma zfin_run mem H : forall g g', zfin g -> Forall finite_call H -> grun (zn_calc_column mem) (@zn_calc_diagonal R NR) (@zn_append_series R NR) (@zn_append_query R NR) g H = Ok g' -> zfin g'.
  Proof.
    induction H as [|o H IH]; intros g g' Z HF E; cbn in E; [injection E as <-; exact Z|]. inversion HF; subst. apply bind_ok in E. destruct E as (g1 & E1 & E). apply (IH g1); [|assumption|exact E].
    destruct o as [xs|xs|c|d]; cbn in E1.
    - eapply zfin_append_series; eassumption.
    - eapply zfin_append_query; eassumption.
    - apply bind_ok in E1. destruct E1 as ([g2 ds] & E1 & E2). injection E2 as <-. eapply zn_col_fin; eassumption.
    - apply bind_ok in E1. destruct E1 as ([g2 ds] & E1 & E2). injection E2 as <-. destruct (zn_diag_fin _ Z E1) as [-> _]. exact Z.
  Qed.
End Rounded.

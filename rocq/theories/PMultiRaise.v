(** * PMultiRaise: the diagonals that MultidimensionalMatrixProfileLR rejects *)
From Coq Require Import QArith Permutation.
From Verif Require Import Np NpFacts Mat MUtil MRing SRing PRing SLog PLog PSort MMulti SMulti PMulti PMultiRun.
Set Implicit Arguments.
Open Scope nat_scope.

Section Raise.
  Context {A : Type} {NA : NumOps A} {OL : OrdLaws A} {AL : AvgLaws A}.
  Notation num := (Np.num A).
  Variables (D h w : nat).
  Hypothesis HD : 0 < D.
  Hypothesis Hw : 0 < w.

  (** A diagonal below the main one whose rows go beyond the length of the series, or one that changed sides *)
  Definition rejected (ss qs : Z) (d : Z) (n : nat) : Prop := ((0 <= d)%Z /\ (d + (ss - qs) < 0)%Z) \/ ((d < 0)%Z /\ 0 < n /\ w < Z.to_nat (- d) + n).

  Lemma dim_loop_err (values : list (list num)) body c0 lanes e : 0 < length values -> (forall lane, nth_error lanes 0 = Some lane -> body 0 (map (fun x => fdivp x (nofZ (Z.of_nat 0 + 1))) (zip_with fadd c0 (sorted_row values 0))) lane = Err e) ->
    0 < length lanes -> dim_loop values body (c0, lanes) = Err e.
  Proof.
    intros Hv HB Hl. unfold dim_loop. destruct values as [|v vs]; [cbn in Hv; lia|]. cbn [length seq foldM fst snd]. destruct lanes as [|lane lanes]; [cbn in Hl; lia|]. unfold getitem at 1. cbn [nth_error bind].
    rewrite (HB lane eq_refl). reflexivity.
  Qed.

  Lemma md_diag_err argsort es s d vs n : md_inv D w es s -> rect D n vs -> (- Z.of_nat h < d < Z.of_nat w)%Z -> Z.to_nat (Z.max 0 d) + n <= w -> rejected (sshift es) (qshift es) d n -> md_diag argsort s d vs = Err IndexError.
  Proof.
    intros (I1 & I2 & I3 & I4 & I5 & I6 & I7) HR Hd Hn Hrej. assert (HL : length vs = D) by apply HR. unfold md_diag. rewrite I3, I4, I5.
    assert (Hhd : length (hd [] vs) = n) by exact (hd_len HD Hw HR). rewrite Hhd.
    assert (Hshort : forall lane k P ss L, side_inv w L ss P k lane -> forall mean dims, length mean = n -> 0 < n -> w < Z.to_nat (- d) + n -> (d < 0)%Z -> sd_update mean (lslice (arange (qshift es) w) (Z.to_nat (- d)) (Z.to_nat (- d) + n)) dims lane 0 n = Err IndexError).
    { intros lane k P ss L [[M1 _] _] mean dims Lm Hpos Hlong Hneg. unfold sd_update. assert (Lv : length (rb_view (sd_mp lane)) = w) by apply M1.
      rewrite length_lslice, Lv, Lm. replace (Nat.min n w - 0) with n by lia. rewrite Nat.eqb_refl. cbn [negb]. rewrite length_lslice. unfold arange. rewrite map_length, seq_length. destruct (Nat.eqb_spec (Nat.min (Z.to_nat (- d) + n) w - Z.to_nat (- d)) n); [lia|]. reflexivity. }
    assert (Lmean : forall c0 : list num, length c0 = n -> length (map (fun x => fdivp x (nofZ (Z.of_nat 0 + 1))) (zip_with fadd c0 (sorted_row vs 0))) = n).
    { intros c0 Hc. rewrite map_length, length_zip_with, Hc. unfold sorted_row, axis0. rewrite !map_length, seq_length, Hhd. lia. }
    destruct Hrej as [[Hp Hs]|(Hneg & Hpos & Hlong)].
    - destruct (Z.leb_spec 0 (d + (sshift es - qshift es))); [lia|]. destruct (Z.leb_spec 0 d); [|lia]. rewrite (@dim_loop_err vs _ _ _ IndexError); [reflexivity|lia|reflexivity|lia].
    - destruct (Z.leb_spec 0 d); [lia|]. destruct (0 <=? d + (sshift es - qshift es))%Z.
      + rewrite (@dim_loop_err vs _ _ _ IndexError); [reflexivity|lia| |lia]. intros lane Hl. destruct (I7 0 lane Hl) as [SL SR]. unfold on_left. rewrite (Hshort _ _ _ _ _ SL); [reflexivity|apply Lmean, repeat_length|assumption..].
      + rewrite (@dim_loop_err vs _ _ _ IndexError); [reflexivity|lia| |lia]. intros lane Hl. destruct (I7 0 lane Hl) as [SL SR]. unfold on_right. rewrite (Hshort _ _ _ _ _ SR); [reflexivity|apply Lmean, repeat_length|assumption..].
  Qed.

  Lemma md_run_err argsort s0 es1 d vs es2 : argsorts argsort -> md_inv D w [] s0 -> Forall (mfits D h w) es1 -> Forall nonneg (filter (fun e => match e with EDiag _ _ => true | _ => false end) es1) -> md_diags_ok w 0 es1 ->
    mfits D h w (EDiag d vs) -> rejected (sshift es1) (qshift es1) d (length (hd [] vs)) -> md_run argsort s0 (es1 ++ EDiag d vs :: es2) = Err IndexError.
  Proof.
    intros Ha H0 HF HN HO (Hd & n & HR & Hn1 & Hn2) Hrej. destruct (@md_run_ok A NA OL AL D h w HD Hw argsort s0 es1 Ha H0 HF HN HO) as (s & E & HI). unfold md_run in *. rewrite foldM_app, E. cbn [bind foldM md_step].
    rewrite (hd_len HD Hw HR) in Hrej. rewrite (@md_diag_err argsort es1 s d vs n HI HR); [reflexivity|lia|lia|exact Hrej].
  Qed.

  Definition long (e : event num) : Prop := match e with EDiag d vs => w < Z.to_nat (- d) + length (hd [] vs) | _ => False end.
  Lemma long_dec e : {long e} + {~ long e}.
  Proof. destruct e; cbn [long]; try (right; intros []; fail). apply lt_dec. Qed.
  Lemma short_diags_ok (es : list (event num)) : Forall no_shift es -> (forall e, In e es -> ~ long e) -> md_diags_ok w 0 es.
  Proof.
    clear. induction es as [|e es IH]; intros HN HL; [exact I|]. cbn [md_diags_ok]. apply Forall_inv in HN as He. apply Forall_inv_tail in HN. split.
    - specialize (HL e ltac:(left; reflexivity)). destruct e; try exact I. cbn [long] in HL. split; [rewrite Z.add_0_r; reflexivity|lia].
    - destruct e; try contradiction; cbn [event_sshift event_qshift]; apply IH; auto; intros; apply HL; right; assumption.
  Qed.
  Lemma first_long (es : list (event num)) : (exists e, In e es /\ long e) -> exists es1 e es2, es = es1 ++ e :: es2 /\ long e /\ forall e, In e es1 -> ~ long e.
  Proof.
    clear. induction es as [|x l IH]; intros (e & He & Hb); [destruct He|]. destruct (long_dec x) as [Ex|Ex].
    - exists [], x, l. split; [reflexivity|]. split; [exact Ex|intros ? []].
    - destruct IH as (es1 & e' & es2 & -> & H1 & H2); [destruct He as [<-|He]; [congruence|eauto]|]. exists (x :: es1), e', es2. split; [reflexivity|]. split; [exact H1|]. intros y [<-|Hy]; auto.
  Qed.
  Lemma unshifted_err argsort s0 es : argsorts argsort -> md_inv D w [] s0 -> Forall no_shift es -> Forall (mfits D h w) es -> Forall nonneg (filter (fun e => match e with EDiag _ _ => true | _ => false end) es) ->
    (forall d vs, In (EDiag d vs) es -> hd [] vs <> []) -> (exists e, In e es /\ long e) -> md_run argsort s0 es = Err IndexError.
  Proof.
    intros Ha H0 HN HF HP Hne Hex. destruct (first_long es Hex) as (es1 & e & es2 & -> & Hl & Hpre). destruct e as [d vs| | |]; [|destruct Hl..].
    specialize (Hne d vs ltac:(apply in_app_iff; right; left; reflexivity)). apply Forall_app in HN. destruct HN as [HN _]. apply Forall_app in HF. destruct HF as [HF He]. apply Forall_inv in He. rewrite filter_app in HP. apply Forall_app in HP. destruct HP as [HP _].
    apply md_run_err; try assumption; [apply short_diags_ok; assumption|]. right. pose proof He as (_ & n & HR & H1 & H2). cbn [long] in Hl. assert (0 < length (hd [] vs)) by (destruct (hd [] vs); [congruence|cbn; lia]). rewrite (hd_len HD Hw HR) in *. lia.
  Qed.
End Raise.

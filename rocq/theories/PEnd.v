(** * PEnd: complete calculations of a matrix profile *)
From Coq Require Import QArith Permutation.
From Verif Require Import Np NpFacts Mat MUtil SLog PLog PSort PMulti MProfile PProfile PShift MCalc SCalc PCalc PCalcRun PCalcEnd SMixed PMixed SEnd SGen.
Set Implicit Arguments.
Open Scope nat_scope.

Section Profile.
  Context {A : Type} {NA : NumOps A} {OL : OrdLaws A}.
  Notation num := (Np.num A).
  Variables (self : bool) (h w : nat) (b : Z) (D : nat -> nat -> num).
  Hypothesis Hnan : forall r c, r < h -> c < w -> isnan (D r c) = false.
  Hypothesis Hself : self = true -> h = w /\ forall r c, r < h -> c < h -> D r c = D c r.
  Hypothesis Hh : 0 < h.

  Definition Dc (c : nat) : list num := map (fun r => D r c) (seq 0 h).
  Definition Dz (r c : Z) : num := D (Z.to_nat r) (Z.to_nat c).
  Definition Dd (d : Z) : list num := diag_of Dz h w d.
  (** The matrix with +inf for the trivial matches *)
  Definition Dm (r c : Z) : num := if (Z.abs (r - c) <=? b)%Z then PInf else Dz r c.

  Definition fine (t : list part) : Prop :=
    (forall c, In c (cols_in t) -> c < w) /\
    (forall d, In d (diags_in t) -> on_matrix h w d /\ (b < Z.abs d)%Z /\ (self = true -> 0 <= d)%Z).

  Notation evs t := (mixed_calls (fun _ => Dc) (fun _ => Dd) self b t [0]).

  Lemma evs_in t e : In e (evs t) <-> (exists c, In c (cols_in t) /\ e = ECol c [hide b c (Dc c)]) \/
    (exists d, In d (diags_in t) /\ (e = EDiag d [Dd d] \/ (self = true /\ e = EDiag (- d) [Dd d]))).
  Proof.
    clear. unfold mixed_calls, cols_in, diags_in. rewrite in_flat_map. split.
    - intros (p & Hp & He). destruct p as [c n|ds]; cbn [part_calls] in He.
      + left. unfold column_calls in He. apply in_map_iff in He. destruct He as (c' & <- & Hc). exists c'. split; [apply in_flat_map; exists (PCols c n); split; [exact Hp|exact Hc]|reflexivity].
      + right. unfold diagonal_calls in He. apply in_flat_map in He. destruct He as (d & Hd & [<-|He]).
        * exists d. split; [apply in_flat_map; exists (PDiags ds); split; [exact Hp|exact Hd]|left; reflexivity].
        * destruct self; [|destruct He]. destruct He as [<-|[]]. exists d. split; [apply in_flat_map; exists (PDiags ds); split; [exact Hp|exact Hd]|right; split; reflexivity].
    - intros [(c & Hc & ->)|(d & Hd & He)].
      + apply in_flat_map in Hc. destruct Hc as (p & Hp & Hc). exists p. split; [exact Hp|]. destruct p as [c0 n|ds]; [|destruct Hc]. cbn [part_calls]. unfold column_calls. apply in_map_iff. exists c. split; [reflexivity|exact Hc].
      + apply in_flat_map in Hd. destruct Hd as (p & Hp & Hd). exists p. split; [exact Hp|]. destruct p as [c0 n|ds]; [destruct Hd|]. cbn [part_calls]. unfold diagonal_calls. apply in_flat_map. exists d. split; [exact Hd|].
        destruct He as [->|[-> ->]]; [left; reflexivity|right; left; reflexivity].
  Qed.

  Lemma length_Dc c : length (Dc c) = h.
  Proof. clear. unfold Dc. rewrite map_length, seq_length. reflexivity. Qed.
  Lemma length_hide c l : length (@hide A b c l) = length l.
  Proof. clear. unfold hide. apply length_mapi. Qed.
  Lemma length_Dd d : length (Dd d) = Z.to_nat (dlen h w d).
  Proof. clear. unfold Dd, diag_of. rewrite map_length, seq_length. reflexivity. Qed.

  Lemma evs_ok t : fine t -> Forall no_shift (evs t) /\ Forall (fits h w) (evs t) /\ Forall (full_cols h) (evs t) /\ Forall cols_no_nan (evs t).
  Proof.
    intros [Fc Fd]. repeat split; apply Forall_forall; intros e He; apply evs_in in He; destruct He as [(c & Hc & ->)|(d & Hd & He)];
      try (destruct He as [->|[_ ->]]; exact I); try exact I.
    - split; [apply Fc, Hc|]. exists (hide b c (Dc c)), []. split; [reflexivity|]. rewrite length_hide, length_Dc. lia.
    - destruct (Fd d Hd) as (Hm & _ & Hs). unfold on_matrix in Hm. destruct He as [->|[Es ->]].
      + cbn [fits]. split; [exact Hm|]. exists (Dd d), []. split; [reflexivity|]. rewrite length_Dd. unfold dlen. lia.
      + destruct (Hself Es) as [-> _]. specialize (Hs Es). cbn [fits]. split; [lia|]. exists (Dd d), []. split; [reflexivity|]. rewrite length_Dd. unfold dlen. lia.
    - intros vals [<-|[]]. rewrite length_hide. apply length_Dc.
    - intros vals [<-|[]] x Hx. unfold hide in Hx. apply in_mapi in Hx. destruct Hx as (r & v & Hr & ->). unfold Dc in Hr. rewrite nth_error_map, nth_error_seq in Hr.
      destruct (Nat.ltb_spec r h); [|discriminate]. injection Hr as <-. destruct (_ <=? b)%Z; [reflexivity|]. apply Hnan; [lia|]. apply Fc, Hc.
  Qed.

  Lemma log_in t r c v : fine t -> In (r, c, v) (log (evs t)) <->
    (0 <= r < Z.of_nat h /\ 0 <= c < Z.of_nat w)%Z /\ v = Dm r c /\
    (In (Z.to_nat c) (cols_in t) \/ In (c - r)%Z (diags_in t) \/ (self = true /\ In (r - c)%Z (diags_in t))).
  Proof.
    intros F. destruct (evs_ok F) as (Hns & _). destruct F as [Fc Fd]. rewrite (log_no_shift Hns), in_flat_map. split.
    - intros (e & He & Hin). apply evs_in in He. destruct He as [(j & Hc & ->)|(d & Hd & He)].
      + cbn [event_cells] in Hin. unfold col_cells in Hin. apply in_mapi in Hin. destruct Hin as (k & x & Hk & E). injection E as -> -> ->.
        unfold hide in Hk. rewrite nth_error_mapi in Hk. unfold Dc in Hk. rewrite nth_error_map, nth_error_seq in Hk. destruct (Nat.ltb_spec k h); [|discriminate]. cbn [option_map Nat.add] in Hk. injection Hk as <-.
        specialize (Fc j Hc). split; [lia|]. split; [unfold Dm, Dz; cbn [Z.add]; rewrite !Nat2Z.id; reflexivity|]. left. cbn [Z.add]. rewrite Nat2Z.id. exact Hc.
      + destruct (Fd d Hd) as (Hm & Hb & Hs). destruct He as [->|[Es ->]]; cbn [event_cells] in Hin.
        * apply in_diag_of in Hin; [|exact Hm]. destruct Hin as (H1 & H2 & H3 & ->). split; [lia|]. split.
          { unfold Dm. destruct (Z.leb_spec (Z.abs (r - c)) b); [lia|reflexivity]. }
          right. left. rewrite H3. exact Hd.
        * destruct (Hself Es) as [Ehw Hsym]. specialize (Hs Es). unfold Dd in Hin. rewrite Ehw in Hin. apply in_diag_mirror in Hin; [|unfold on_matrix in Hm; lia]. destruct Hin as (H1 & H2 & H3 & ->). split; [lia|]. split.
          { unfold Dm. destruct (Z.leb_spec (Z.abs (r - c)) b); [lia|]. unfold Dz. apply Hsym; lia. }
          right. right. split; [exact Es|]. rewrite H3. exact Hd.
    - intros ((Hr & Hc) & -> & Hin). destruct Hin as [Hin|[Hin|[Es Hin]]].
      + exists (ECol (Z.to_nat c) [hide b (Z.to_nat c) (Dc (Z.to_nat c))]). split; [apply evs_in; left; eauto|]. cbn [event_cells]. unfold col_cells. apply in_mapi. exists (Z.to_nat r), (Dm r c). split.
        * unfold hide. rewrite nth_error_mapi. unfold Dc. rewrite nth_error_map, nth_error_seq. destruct (Nat.ltb_spec (Z.to_nat r) h); [|lia]. cbn [option_map Nat.add]. unfold Dm, Dz. rewrite !Z2Nat.id by lia. reflexivity.
        * rewrite !Z2Nat.id by lia. reflexivity.
      + destruct (Fd _ Hin) as (Hm & Hb & Hs). exists (EDiag (c - r) [Dd (c - r)]). split; [apply evs_in; right; eauto|]. cbn [event_cells]. apply in_diag_of; [exact Hm|]. do 3 (split; [lia|]).
        unfold Dm. destruct (Z.leb_spec (Z.abs (r - c)) b); [lia|reflexivity].
      + destruct (Fd _ Hin) as (Hm & Hb & Hs). specialize (Hs Es). destruct (Hself Es) as [Ehw Hsym]. exists (EDiag (- (r - c)) [Dd (r - c)]). split; [apply evs_in; right; exists (r - c)%Z; auto|].
        cbn [event_cells]. unfold Dd. rewrite Ehw. apply in_diag_mirror; [unfold on_matrix in Hm; lia|]. rewrite <- Ehw at 1. do 3 (split; [lia|]). unfold Dm. destruct (Z.leb_spec (Z.abs (r - c)) b); [lia|]. unfold Dz. apply Hsym; lia.
  Qed.

  Lemma evs_agree t : fine t -> agrees Dm (log (evs t)).
  Proof. intros F r c v H. apply (log_in _ _ _ F) in H. apply H. Qed.

  Lemma profile_of t : fine t -> exists s, mplr_run (mplr_init h w) (evs t) = Ok s /\ length (mplr_mp s) = w /\ length (mplr_idx s) = w /\
    forall j, j < w -> exists v i, nth_error (mplr_mp s) j = Some v /\ nth_error (mplr_idx s) j = Some i /\ smallest (fun r => r < h /\ given self b t r j) (fun r => D r j) v i.
  Proof.
    intro F. destruct (evs_ok F) as (H1 & H2 & H3 & H4). destruct (@C35_lemma A NA OL h w Dm (evs t) H1 H2 H3 H4 (evs_agree F)) as (s & E & L1 & L2 & HS).
    exists s. split; [exact E|]. split; [exact L1|]. split; [exact L2|]. intros j Hj. destruct (HS j Hj) as (vl & il & vr & ir & v & i & _ & _ & _ & _ & Ev & Ei & _ & _ & _ & _ & _ & HB).
    exists v, i. split; [exact Ev|]. split; [exact Ei|].
    assert (Hsel : forall r x, In (r, x) (sel all_rows (Z.of_nat j) (log (evs t))) <-> In (r, Z.of_nat j, x) (log (evs t))).
    { intros r x. unfold sel. rewrite in_map_iff. split.
      - intros ([[r0 c0] v0] & E0 & Hf). injection E0 as -> ->. apply filter_In in Hf. destruct Hf as [Hf Hc]. apply andb_true_iff in Hc. destruct Hc as [Hc _]. apply Z.eqb_eq in Hc. subst c0. exact Hf.
      - intro Hin. exists (r, Z.of_nat j, x). split; [reflexivity|]. apply filter_In. split; [exact Hin|]. rewrite Z.eqb_refl. reflexivity. }
    assert (Hrow : forall r, r < h /\ given self b t r j -> In (Z.of_nat r, D r j) (sel all_rows (Z.of_nat j) (log (evs t)))).
    { intros r (Hr & Hf & Hg). apply Hsel, (log_in _ _ _ F). split; [lia|]. split.
      - unfold Dm, Dz. unfold far in Hf. cbn [fst snd] in Hf. apply Z.ltb_lt in Hf. destruct (Z.leb_spec (Z.abs (Z.of_nat r - Z.of_nat j)) b); [lia|]. rewrite !Nat2Z.id. reflexivity.
      - rewrite Nat2Z.id. exact Hg. }
    assert (Hcell : forall r x, In (r, x) (sel all_rows (Z.of_nat j) (log (evs t))) -> x = PInf \/ exists r', r = Z.of_nat r' /\ (r' < h /\ given self b t r' j) /\ x = D r' j).
    { intros r x Hin. apply Hsel, (log_in _ _ _ F) in Hin. destruct Hin as ((Hr & Hc) & -> & Hg). unfold Dm. destruct (Z.leb_spec (Z.abs (r - Z.of_nat j)) b); [left; reflexivity|].
      right. exists (Z.to_nat r). rewrite Z2Nat.id by lia. split; [reflexivity|]. split.
      - split; [lia|]. split; [unfold far; cbn [fst snd]; rewrite Z2Nat.id by lia; apply Z.ltb_lt; lia|]. rewrite Nat2Z.id in Hg. rewrite Z2Nat.id by lia. exact Hg.
      - unfold Dz. rewrite Nat2Z.id. reflexivity. }
    destruct HB as [[-> HB]|(Hlt & Hin & HB)].
    - left. split; [reflexivity|]. intros r Hr. eapply HB, Hrow, Hr.
    - right. split; [exact Hlt|]. destruct (Hcell _ _ Hin) as [->|(r & -> & Hr & ->)]; [discriminate|]. exists r. split; [exact Hr|]. do 2 (split; [reflexivity|]).
      intros r' Hr'. eapply HB, Hrow, Hr'.
  Qed.
End Profile.

(** Completion *)
Lemma cols_snoc t p : cols_in (t ++ [p]) = cols_in t ++ cols_in [p].
Proof. unfold cols_in. apply flat_map_app. Qed.
Lemma mixture_last h w order calls call p : mixture h w order (calls ++ [call]) p -> exists p0, mixture h w order calls p0 /\ mixes h w order call p0 p.
Proof.
  intro H. inversion H as [E|calls' call' p0 p' H1 H2 E]; [destruct calls; discriminate|]. apply app_inj_tail in E. destruct E as [-> ->]. eauto.
Qed.

Section Parts.
  Variables (h w : nat) (order : list Z).
  Hypothesis Hh : 0 < h.
  Hypothesis Hw : 0 < w.
  Hypothesis Hord : forall d, In d order -> on_matrix h w d.

  Lemma mixture_parts calls p : mixture h w order calls p -> (forall c, In c (cols_in (snd p)) -> c < w) /\ (forall d, In d (diags_in (snd p)) -> In d order).
  Proof.
    clear. induction 1 as [|calls call p p' _ [IH1 IH2] Hs]; [split; intros ? []|]. inversion Hs as [intr start upto last t c u n Hc Hu [Hn _]|intr partial last t v new rest _ Ho _ _]; subst p p'; cbn [fst snd] in *.
    - rewrite cols_snoc, diags_snoc. apply resolves_bounds in Hu; [|lia|lia]. split; [|intros d Hd; cbn in Hd; rewrite app_nil_r in Hd; auto]. intros j Hj. apply in_app_iff in Hj. destruct Hj as [Hj|Hj]; [auto|].
      cbn in Hj. rewrite app_nil_r in Hj. apply in_seq in Hj. lia.
    - rewrite cols_snoc, diags_snoc. split; [intros j Hj; cbn in Hj; rewrite app_nil_r in Hj; auto|]. intros d Hd. rewrite Ho. cbn in Hd. rewrite app_nil_r in Hd. rewrite app_assoc. apply in_app_iff. auto.
  Qed.

  Lemma diags_complete calls p : mixture h w order (calls ++ [ADiags never (RFloat (Fin 1%Q))]) p -> diags_in (snd p) = order.
  Proof.
    clear - Hh Hw Hord. intro H. apply mixture_last in H. destruct H as (p0 & _ & Hs). inversion Hs as [|intr partial last t v new rest Rv Ho _ [He|He]]; [discriminate|]. subst p p0. cbn [snd].
    rewrite diags_snoc. cbn [diags_in flat_map]. rewrite app_nil_r. destruct rest as [|d rest]; [rewrite app_nil_r in Ho; auto|exfalso].
    assert (Hd : forall d', In d' (d :: rest) -> on_matrix h w d') by (intros d' Hd'; apply Hord; rewrite Ho; apply in_app_iff; right; apply in_app_iff; auto).
    assert (v = size h w order).
    { destruct Rv as (_ & _ & k & K1 & K2 & ->). rewrite Qmult_1_l, <- Zle_Qle in K1. lia. }
    subst v. rewrite Ho, app_assoc, size_app in He. pose proof (@dlen_pos h w d (Hd d ltac:(left; reflexivity)) Hh Hw). pose proof (@size_pos h w Hh Hw rest ltac:(intros; apply Hd; right; assumption)). unfold size in *. cbn [map fold_right] in *. lia.
  Qed.

  Lemma cols_prefix calls p : Forall continues calls -> mixture h w order calls p -> (-1 <= fst p)%Z /\ forall j, (Z.of_nat j <= fst p)%Z -> In j (cols_in (snd p)).
  Proof.
    clear. intros Hc H. induction H as [|calls call p p' _ IH Hs]; [cbn; split; intros; lia|]. apply Forall_app in Hc. destruct Hc as [Hc Hc1]. apply Forall_inv in Hc1. specialize (IH Hc). destruct IH as [IH1 IH2].
    inversion Hs as [intr start upto last t c u n Hst Hu [Hn _]|intr partial last t v new rest _ Ho _ _]; subst p p' call; cbn [fst snd] in *.
    - destruct start; [destruct Hc1|]. cbn [resolves] in Hst. destruct (Nat.eqb_spec n 0); [split; [lia|]; intros j Hj; rewrite cols_snoc; apply in_app_iff; left; auto|]. split; [lia|]. intros j Hj.
      rewrite cols_snoc. apply in_app_iff. destruct (Z_le_gt_dec (Z.of_nat j) last); [left; auto|right]. cbn. rewrite app_nil_r. apply in_seq. lia.
    - split; [lia|]. intros j Hj. rewrite cols_snoc. apply in_app_iff. left. auto.
  Qed.

  Lemma cols_complete calls p : Forall continues calls -> mixture h w order (calls ++ [ACols never None (RFloat (Fin 1%Q))]) p -> forall j, j < w -> In j (cols_in (snd p)).
  Proof.
    clear. intros Hc H. pose proof H as H'. apply mixture_last in H. destruct H as (p0 & H0 & Hs). inversion Hs as [intr start upto last t c u n Hst Hu [Hn [_ Hr]]|]. subst p p0. cbn [snd] in *.
    destruct (@cols_prefix _ _ Hc H0) as [I1 I2]. cbn [fst snd resolves] in *. intros j Hj. rewrite cols_snoc. apply in_app_iff. destruct (Z_le_gt_dec (Z.of_nat j) last); [left; auto|right]. cbn. rewrite app_nil_r. apply in_seq.
    assert (u = w). { destruct Hu as (_ & _ & k & K1 & K2 & K3). rewrite Qmult_1_l, <- Zle_Qle in K1. lia. }
    subst u. destruct (Nat.eq_dec n (w - c)); [lia|]. specialize (Hr ltac:(lia)). discriminate.
  Qed.
End Parts.

Section Program.
  Context {A : Type} {NA : NumOps A} {OL : OrdLaws A}.
  Notation num := (Np.num A).
  Variables (X G : Type).
  Variable g_col : G -> nat -> res (G * list num).
  Variable g_diag : G -> Z -> res (G * list num).
  Variable prepare : Z -> list X -> option (list X) -> res G.
  Variable set_order : list nat -> list nat.
  Variable shuffle : list Z -> list Z.
  Hypothesis HSO : orders_sets set_order.
  Hypothesis HSH : forall l, Permutation (shuffle l) l.

  Lemma program_lemma m (series : list (list X)) query buffer dim calls n nq (S : list X) (g0 : G) (I : G -> Prop) (D : nat -> nat -> num) :
    let h := nq + 1 - m in let w := n + 1 - m in let b := buffer_used query (Z.of_nat m) buffer in
    0 < m -> m <= n -> m <= nq -> rows_have n series -> match query with Some q => rows_have nq q /\ length q = length series | None => nq = n end ->
    (-1 <= b < Z.of_nat w)%Z -> nth_error series dim = Some S ->
    prepare (Z.of_nat m) S (match query with Some q => nth_error q dim | None => None end) = Ok g0 -> I g0 ->
    gives g_col (fun _ => I) (fun _ => Dc h D) (fun c => c < w) (fun _ => h) -> gives g_diag (fun _ => I) (fun _ => Dd h w D) (on_matrix h w) (fun d => Z.to_nat (dlen h w d)) ->
    (forall r c, r < h -> c < w -> isnan (D r c) = false) -> (query = None -> forall r c, r < h -> c < h -> D r c = D c r) -> Forall sensible_call calls ->
    exists order p mp idx, Permutation order (diagonals query (Z.of_nat m) buffer h w) /\ mixture h w order calls p /\
      profile_program g_col g_diag prepare set_order shuffle (Z.of_nat m) series query buffer (Z.of_nat dim) calls = Ok (mp, idx) /\ length mp = w /\ length idx = w /\
      forall j, j < w -> exists v i, nth_error mp j = Some v /\ nth_error idx j = Some i /\ smallest (fun r => r < h /\ given (is_self query) b (snd p) r j) (fun r => D r j) v i.
  Proof.
    intros h w b Hm Hn Hnq HR Hq Hb HS Hp HI Gc Gd Hnan Hsym Hcalls.
    assert (Hd : dim < length series) by (apply nth_error_Some; congruence).
    assert (Lhd : forall rows : list (list X), dim < length rows -> forall k, rows_have k rows -> length (hd [] rows) = k).
    { intros rows Hl k Hk. destruct rows as [|r0 rows]; [cbn in Hl; lia|]. apply Hk. left. reflexivity. }
    assert (EX : exists a0 : any X G (@mplr A), any_new G (@mplr A) shuffle (Z.of_nat m) series query buffer = Ok a0 /\ ca_tmb (an_calc a0) = b /\ ca_ndim (an_calc a0) = length series /\ ca_m (an_calc a0) = Z.of_nat m /\ an_series a0 = series /\
       an_query a0 = (match query with Some q => q | None => series end) /\ ca_gens (an_calc a0) = [] /\ ca_cons (an_calc a0) = [] /\ ca_self (an_calc a0) = is_self query).
    { unfold any_new. destruct query as [q|]; cbn [is_self].
      - destruct Hq as [Hq El]. rewrite El, Nat.eqb_refl. cbn [negb ca_new bind]. eexists. split; [reflexivity|]. cbn. repeat split; reflexivity.
      - rewrite Nat.eqb_refl. cbn [negb]. rewrite (Lhd series Hd n HR). unfold ca_new. subst b. cbn [buffer_used] in *. unfold buffer_of in *.
        destruct (Z.leb_spec (-1) (match buffer with None => Z.of_nat m / 2 | Some b => b end)%Z); [|lia].
        destruct (Z.ltb_spec (match buffer with None => Z.of_nat m / 2 | Some b => b end) (Z.of_nat n - Z.of_nat m + 1))%Z; [|lia]. cbn [andb bind]. eexists. split; [reflexivity|]. cbn. repeat split; reflexivity. }
    destruct EX as (a0 & E0 & Et & End & Em & Es & Eq & Eg & Ec & Eself).
    assert (HB : built shuffle (Z.of_nat m) series query buffer h w a0).
    { split; [exact HSH|]. split; [exact E0|]. split; [lia|]. split; [lia|]. rewrite (Lhd series Hd n HR). split; [lia|]. destruct query as [q|]; [|rewrite (Lhd series Hd n HR); lia].
      destruct Hq as [Hq El]. rewrite (Lhd q ltac:(lia) nq Hq). lia. }
    destruct (built_fresh [(g0, dim)] [(mplr_init h w, [0])] HB) as (b' & Hf & HP & Hs).
    assert (Hord : forall d, In d (an_order a0) -> on_matrix h w d) by exact (fr_order Hf).
    assert (Ens : ca_ns (an_calc a0) = Z.of_nat w) by exact (fr_ns Hf).
    assert (Enq : ca_nq (an_calc a0) = Z.of_nat h) by exact (fr_nq Hf).
    set (GI := fun (id : nat) (g : G) => I g).
    destruct (@any_mixed A X G (@mplr A) g_col g_diag mplr_step set_order shuffle (Z.of_nat m) series query buffer h w a0 [(g0, dim)] [(mplr_init h w, [0])] (fun _ => I) (fun _ => Dc h D) (fun _ => Dd h w D) calls) as (p & Hmix & _ & R2); auto.
    { intros c ids id [E|[]] Hid. injection E as <- <-. destruct Hid as [<-|[]]. cbn. lia. }
    { intros id g d Hg. destruct id as [|[|id]]; cbn in Hg; try discriminate. injection Hg as <- <-. exact HI. }
    destruct (@mixture_parts h w (an_order a0) calls p Hmix) as [P1 P2].
    assert (Hself : is_self query = true -> h = w /\ forall r c, r < h -> c < h -> D r c = D c r).
    { destruct query as [q|]; [discriminate|]. intros _. subst nq. split; [reflexivity|]. apply Hsym. reflexivity. }
    assert (F : fine (is_self query) h w b (snd p)).
    { split; [exact P1|]. intros d Hd'. apply P2 in Hd'. split; [apply Hord; exact Hd'|]. apply (Permutation_in d HP) in Hd'. unfold diagonals in Hd'. apply in_pyrange in Hd'. subst b. destruct query; cbn [buffer_used is_self] in *.
      - split; [lia|discriminate].
      - split; lia. }
    destruct (@profile_of A NA OL (is_self query) h w b D Hnan Hself ltac:(lia) (snd p) F) as (s & Er & L1 & L2 & HV).
    rewrite Et in R2. destruct (R2 [(s, [0])]) as (a & Ea & Eca).
    { constructor; [|constructor]. cbn [fst snd]. split; [reflexivity|exact Er]. }
    exists (an_order a0), p, (mplr_mp s), (mplr_idx s). split; [exact HP|]. split; [exact Hmix|]. split; [|auto].
    unfold profile_program. rewrite E0. cbn [bind]. unfold any_add_generator. rewrite End, Es, Eself, Em.
    destruct (Z.ltb_spec (Z.of_nat dim) 0); [lia|]. destruct (Z.leb_spec (Z.of_nat (length series)) (Z.of_nat dim)); [lia|]. cbn [orb]. rewrite Nat2Z.id.
    unfold getitem at 1. rewrite HS. cbn [bind].
    assert (Eg0 : (if negb (is_self query) then do qrow <- getitem (an_query a0) dim; prepare (Z.of_nat m) S (Some qrow) else prepare (Z.of_nat m) S None) = Ok g0).
    { destruct query as [q|]; cbn [is_self negb]; [|exact Hp]. rewrite Eq. unfold getitem. destruct (nth_error q dim) as [qr|] eqn:Eqr; [exact Hp|]. apply nth_error_None in Eqr. lia. }
    rewrite Eg0. cbn [bind]. unfold add_consumer. cbn [ca_upd ca_ns ca_nq ca_gens ca_cons ca_last an_calc bind length]. rewrite Eg, Ec, Ens, Enq, !Nat2Z.id. cbn [app].
    unfold with_parts in Ea. cbn [an_series an_query an_order an_total an_next an_done]. unfold ca_upd in *. cbn [ca_self ca_m ca_ndim ca_ns ca_nq ca_tmb] in *. rewrite ?Ens, ?Enq, ?Es, ?Eself, ?Em, ?End. rewrite ?Ens, ?Enq, ?Es, ?Eself, ?Em, ?End in Ea. rewrite Ea. cbn [bind]. rewrite Eca. reflexivity.
  Qed.

  Lemma complete_given query m buffer h w t r j : (query = None -> h = w) -> r < h -> j < w -> complete (T := list (list X)) query m buffer h w t -> (-1 <= buffer_used query m buffer)%Z ->
    far (buffer_used query m buffer) (Z.of_nat r, Z.of_nat j) = true -> given (is_self query) (buffer_used query m buffer) t r j.
  Proof.
    clear. intros Hs Hr Hj Hc Hb Hf. split; [exact Hf|]. destruct Hc as [Hc|Hc]; [left; auto|]. right. unfold far in Hf. cbn [fst snd] in Hf. apply Z.ltb_lt in Hf. unfold diagonals in Hc. destruct query as [q|]; cbn [buffer_used is_self] in *.
    - left. apply Hc, in_pyrange. lia.
    - specialize (Hs eq_refl). subst h. destruct (Z_le_gt_dec (Z.of_nat r) (Z.of_nat j)).
      + left. apply Hc, in_pyrange. lia.
      + right. split; [reflexivity|]. apply Hc, in_pyrange. lia.
  Qed.

  (** A generator that answers correctly after any calculations *)
  Lemma gives_answers m S Q (g0 : G) (D : nat -> nat -> num) : let h := length Q + 1 - m in let w := length S + 1 - m in
    0 < m -> m <= length S -> m <= length Q ->
    let run := grun g_col g_diag (fun _ (_ : list X) => Err TypeError) (fun _ _ => Err TypeError) in
    (forall H, calc_only m S Q H -> exists g, run g0 H = Ok g /\ (forall c, c + m <= length S -> exists g', g_col g c = Ok (g', Dc h D c)) /\ (forall d, has_diag m S Q d -> exists g', g_diag g d = Ok (g', Dd h w D d))) ->
    let I := fun g => exists H, calc_only m S Q H /\ run g0 H = Ok g in
    I g0 /\ gives g_col (fun _ : nat => I) (fun _ => Dc h D) (fun c => c < w) (fun _ => h) /\ gives g_diag (fun _ : nat => I) (fun _ => Dd h w D) (on_matrix h w) (fun d => Z.to_nat (dlen h w d)).
  Proof.
    clear. intros h w Hm HS HQ run A0 I.
    assert (Hrun : forall H o g, run g0 H = Ok g -> run g0 (H ++ [o]) = gstep g_col g_diag (fun _ _ => Err TypeError) (fun _ _ => Err TypeError) g o).
    { intros H o g E. unfold run, grun in *. rewrite foldM_app, E. cbn [bind foldM]. destruct (gstep _ _ _ _ g o); reflexivity. }
    assert (Hcat : forall H o, calc_only m S Q H -> match o with CCol c => has_col m S Q c | CDiag d => has_diag m S Q d | _ => False end -> calc_only m S Q (H ++ [o])).
    { intros H o C1 C2 o' Ho. apply in_app_iff in Ho. destruct Ho as [Ho|[<-|[]]]; [exact (C1 _ Ho)|exact C2]. }
    split; [|split].
    - exists []. split; [intros o []|reflexivity].
    - intros id g c (H & Hc & Er) Hcw. destruct (A0 H Hc) as (g1 & E1 & B & _). assert (g1 = g) by congruence. subst g1. destruct (B c ltac:(lia)) as (g' & Ec). exists g'. split; [exact Ec|]. split; [|apply length_Dc].
      exists (H ++ [CCol c]). split; [apply Hcat; [exact Hc|split; lia]|]. rewrite (Hrun _ _ _ Er). cbn [gstep]. rewrite Ec. reflexivity.
    - intros id g d (H & Hc & Er) Hd. destruct (A0 H Hc) as (g1 & E1 & _ & B). assert (g1 = g) by congruence. subst g1. assert (Hd' : has_diag m S Q d).
      { unfold on_matrix in Hd. exists (Z.to_nat (- d)), (Z.to_nat d). lia. }
      destruct (B d Hd') as (g' & Ec). exists g'. split; [exact Ec|]. split; [|apply length_Dd].
      exists (H ++ [CDiag d]). split; [apply Hcat; [exact Hc|exact Hd']|]. rewrite (Hrun _ _ _ Er). cbn [gstep]. rewrite Ec. reflexivity.
  Qed.

  (** All together *)
  Lemma program_all m n nq series query buffer dim calls S Q g0 (D : nat -> nat -> num) : let h := nq + 1 - m in let w := n + 1 - m in let b := buffer_used query (Z.of_nat m) buffer in
    proper_input m n nq series query buffer -> channel_data dim series query S Q -> Forall sensible_call calls ->
    prepare (Z.of_nat m) S (match query with Some _ => Some Q | None => None end) = Ok g0 ->
    let run := grun g_col g_diag (fun _ (_ : list X) => Err TypeError) (fun _ _ => Err TypeError) in
    (forall H, calc_only m S Q H -> exists g, run g0 H = Ok g /\ (forall c, c + m <= length S -> exists g', g_col g c = Ok (g', Dc h D c)) /\ (forall d, has_diag m S Q d -> exists g', g_diag g d = Ok (g', Dd h w D d))) ->
    (forall r c, r < h -> c < w -> isnan (D r c) = false) -> (query = None -> forall r c, r < h -> c < h -> D r c = D c r) ->
    exists order p res, Permutation order (diagonals query (Z.of_nat m) buffer h w) /\ mixture h w order calls p /\
      profile_program g_col g_diag prepare set_order shuffle (Z.of_nat m) series query buffer (Z.of_nat dim) calls = Ok res /\
      profile_ok D w (fun j r => r < h /\ given (is_self query) b (snd p) r j) res /\
      (complete query (Z.of_nat m) buffer h w (snd p) -> profile_ok D w (outside b h) res) /\
      (completes calls -> profile_ok D w (outside b h) res).
  Proof.
    intros h w b (Hm & Hn & Hnq & HR & Hq & Hb) [HS HQ] Hcalls Hp run A0 Hnan Hsym.
    assert (LS : length S = n) by (apply HR; eapply nth_error_In; exact HS).
    assert (LQ : length Q = nq).
    { destruct query as [q|]; [destruct Hq as [Hq _]; apply Hq; eapply nth_error_In; exact HQ|]. subst Q. rewrite LS. auto. }
    unfold h, w in *. clear h w. rewrite <- LS, <- LQ in *. set (h := length Q + 1 - m) in *. set (w := length S + 1 - m) in *.
    destruct (@gives_answers m S Q g0 D Hm Hn Hnq A0) as (I0 & G1 & G2).
    destruct (@program_lemma m series query buffer dim calls (length S) (length Q) S g0 (fun g => exists H, calc_only m S Q H /\ run g0 H = Ok g) D Hm Hn Hnq HR Hq Hb HS) as (order & p & mp & idx & HP & HM & HE & L1 & L2 & HV); auto.
    { destruct query; [rewrite HQ|]; exact Hp. }
    exists order, p, (mp, idx). split; [exact HP|]. split; [exact HM|]. split; [exact HE|]. split; [exact (conj L1 (conj L2 HV))|].
    assert (HC : complete query (Z.of_nat m) buffer h w (snd p) -> profile_ok D w (outside b h) (mp, idx)).
    { intro Hc. split; [exact L1|]. split; [exact L2|]. intros j Hj. destruct (HV j Hj) as (v & i & E1 & E2 & HSm). exists v, i. split; [exact E1|]. split; [exact E2|].
      assert (Eqv : forall r, outside b h j r <-> r < h /\ given (is_self query) b (snd p) r j).
      { intro r. split.
        - intros [Hr Hf]. split; [exact Hr|]. subst b. eapply complete_given with (h := h) (w := w); auto; try lia.
          + intros ->. unfold h, w. congruence.
          + unfold far. cbn [fst snd]. apply Z.ltb_lt. exact Hf.
        - intros [Hr [Hf _]]. unfold far in Hf. cbn [fst snd] in Hf. apply Z.ltb_lt in Hf. split; assumption. }
      destruct HSm as [[-> Hall]|(Hlt & r & Hr & -> & -> & Hall)].
      - left. split; [reflexivity|]. intros r Hr. apply Hall, Eqv, Hr.
      - right. split; [exact Hlt|]. exists r. split; [apply Eqv; exact Hr|]. do 2 (split; [reflexivity|]). intros r' Hr'. apply Hall, Eqv, Hr'. }
    split; [exact HC|]. intro Hcs. apply HC.
    assert (Hh : 0 < h) by lia. assert (Hw : 0 < w) by lia.
    destruct Hcs as [(calls' & ->)|(calls' & -> & Hcont)].
    - right. intros d Hd. rewrite (@diags_complete h w order Hh Hw) with (2 := HM).
      + eapply Permutation_in; [symmetry; exact HP|exact Hd].
      + intros d' Hd'. apply (Permutation_in d' HP) in Hd'. unfold diagonals in Hd'. apply in_pyrange in Hd'. subst b. unfold on_matrix. destruct query; cbn [buffer_used] in *; lia.
    - left. eapply cols_complete; eassumption.
  Qed.
End Program.

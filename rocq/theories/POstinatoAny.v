(** * POstinatoAny: OstinatoAnytime on finite data *)
From Coq Require Import QArith Reals Lra Sorted Permutation.
From Verif Require Import Np NpFacts Mat MRing MUtil MArith MStats MCache MZnorm MMulti MProfile MCalc MOstinato SLog SUtil SMulti PSort SReal SCalc SMixed SEnd SGen SOstinato PArith PCalc PCalcRun PCalcEnd PMixed PProfile PEnd PZgeo PZnorm PFilterReal PropEnd POstinato POstinatoSub.
Set Implicit Arguments.
Open Scope nat_scope.

(** ** Transposed matrices *)
Definition flip (p : part) : part := match p with PCols c n => PCols c n | PDiags ds => PDiags (map Z.opp ds) end.
Definition only_diags (t : list part) : Prop := cols_in t = [].
Lemma diags_flip t : diags_in (map flip t) = map Z.opp (diags_in t).
Proof. induction t as [|[c n|ds] t IH]; [reflexivity|exact IH|]. cbn [map flip]. change (map Z.opp ds ++ diags_in (map flip t) = map Z.opp (ds ++ diags_in t)). rewrite IH, map_app. reflexivity. Qed.
Lemma cols_flip t : cols_in (map flip t) = cols_in t.
Proof. induction t as [|[c n|ds] t IH]; [reflexivity| |exact IH]. cbn [map flip]. change (seq c n ++ cols_in (map flip t) = seq c n ++ cols_in t). rewrite IH. reflexivity. Qed.
Lemma diag_flip {T} (D : Z -> Z -> T) h w d : diag_of (fun r c => D c r) w h (- d) = diag_of D h w d.
Proof.
  unfold diag_of. assert (E : dlen w h (- d) = dlen h w d) by (unfold dlen; rewrite Z.opp_involutive; lia). rewrite E. apply map_ext. intro k. rewrite Z.opp_involutive. reflexivity.
Qed.

Section Numbers.
  Context {A : Type} {NA : NumOps A}.
  Lemma run_forward h w D b t c :
    foldM (@mpc_step A NA) (mixed_calls (fun _ => Dc h D) (fun _ => Dd h w D) false b t [0]) (Forward c) =
    bind (mplr_run c (mixed_calls (fun _ => Dc h D) (fun _ => Dd h w D) false b t [0])) (fun c => Ok (Forward c)).
  Proof.
    generalize (mixed_calls (fun _ => Dc h D) (fun _ => Dd h w D) false b t [0]) as es. intro es. unfold mplr_run. revert c.
    induction es as [|e es IH]; intro c; [reflexivity|]. cbn [foldM mpc_step]. destruct (mplr_step c e) as [c'|]; [|reflexivity]. cbn [bind]. apply IH.
  Qed.
  Lemma run_reverse h w D b t c : only_diags t ->
    foldM (@mpc_step A NA) (mixed_calls (fun _ => Dc h D) (fun _ => Dd h w D) false b t [0]) (Reverse c) =
    bind (mplr_run c (mixed_calls (fun _ => Dc w (fun r c => D c r)) (fun _ => Dd w h (fun r c => D c r)) false b (map flip t) [0])) (fun c => Ok (Reverse c)).
  Proof.
    assert (F : forall es es' c, Forall2 (fun e e' => match e with EDiag d v => e' = EDiag (- d)%Z v | _ => False end) es es' ->
      foldM (@mpc_step A NA) es (Reverse c) = bind (mplr_run c es') (fun c => Ok (Reverse c))).
    { intros es es' c0 H. unfold mplr_run. revert c0. induction H as [|e e' es es' He _ IH]; intro c0; [reflexivity|]. destruct e as [d v| | |]; try contradiction. subst e'. cbn [foldM mpc_step].
      destruct (mplr_step c0 (EDiag (- d)%Z v)) as [c'|]; [|reflexivity]. cbn [bind]. apply IH. }
    intro HO. apply F. clear F c. induction t as [|p t IH]; [constructor|]. unfold only_diags in HO. cbn [map]. destruct p as [c0 n0|ds].
    - change (seq c0 n0 ++ cols_in t = []) in HO. apply app_eq_nil in HO. destruct HO as [H1 H2]. unfold mixed_calls. cbn [flat_map flip part_calls]. unfold column_calls. rewrite H1. apply IH. exact H2.
    - unfold mixed_calls. cbn [flat_map flip part_calls]. apply Forall2_app; [|apply IH; exact HO]. unfold diagonal_calls. clear. induction ds as [|d ds IH]; [constructor|]. cbn [flat_map map app]. constructor; [|exact IH].
      cbn [map]. f_equal. f_equal. unfold Dd. change (Dz (fun r c => D c r)) with (fun r c => Dz D c r). apply diag_flip.
  Qed.
End Numbers.

Definition diag_call (c : acall) : Prop := match c with ADiags _ r => sensible r | ACols _ _ _ => False end.
Lemma mixture_diags h w order calls p : Forall diag_call calls -> mixture h w order calls p -> only_diags (snd p).
Proof.
  intros Hc H. unfold only_diags. induction H as [|calls call p p' _ IH Hs]; [reflexivity|]. apply Forall_app in Hc. destruct Hc as [Hc Hc1]. apply Forall_inv in Hc1. specialize (IH Hc).
  inversion Hs; subst; [contradiction|]. cbn [snd] in *. rewrite cols_snoc, IH. reflexivity.
Qed.

(** The smallest values of a matrix per column, over the rows selected by [P] *)
Definition minima (D : nat -> nat -> num R) (cols : nat) (P : nat -> nat -> Prop) (l : list (num R)) : Prop :=
  length l = cols /\ forall j, j < cols -> exists v i, nth_error l j = Some v /\ smallest (P j) (fun r => D r j) v i.
Lemma smallest_ext (P P' : nat -> Prop) (f : nat -> num R) v i : (forall r, P r <-> P' r) -> smallest P f v i -> smallest P' f v i.
Proof.
  intros H [[-> HA]|(Hlt & r & Hr & -> & -> & HA)]; [left|right].
  - split; [reflexivity|]. intros r Hr. apply HA, H, Hr.
  - split; [exact Hlt|]. exists r. split; [apply H, Hr|]. do 2 (split; [reflexivity|]). intros r' Hr'. apply HA, H, Hr'.
Qed.

Section Pair.
  Variables (mem : nat -> num R) (memb : nat -> bool) (set_order : list nat -> list nat) (shuffle : list Z -> list Z).
  Hypothesis HSO : orders_sets set_order.
  Hypothesis HSH : forall l, Permutation (shuffle l) l.
  Variables (m : nat) (S Q : list R).
  Hypothesis Hm : 0 < m.
  Hypothesis HS : m <= length S.
  Hypothesis HQ : m <= length Q.
  Notation h := (length Q + 1 - m).
  Notation w := (length S + 1 - m).
  Notation D := (entry (zdist 0) m S Q).

  Lemma pair_ok : exists a0, pair_calculator mem memb shuffle (Z.of_nat m) (fin S) (fin Q) = Ok a0 /\
    exists order, Permutation order (pyrange (- Z.of_nat h + 1) (Z.of_nat w)) /\
    forall calls p, Forall diag_call calls -> mixture h w order calls p ->
      exists a cf cr, foldM (any_call (zn_calc_column mem) (@zn_calc_diagonal R NumR) mpc_step set_order) calls a0 = Ok a /\
        ca_cons (an_calc a) = [(Forward cf, [0]); (Reverse cr, [0])] /\
        minima D w (fun j r => r < h /\ In (Z.of_nat j - Z.of_nat r)%Z (diags_in (snd p))) (mplr_mp cf) /\
        minima (fun r c => D c r) h (fun j r => r < w /\ In (Z.of_nat r - Z.of_nat j)%Z (diags_in (snd p))) (mplr_mp cr).
  Proof.
    destruct (@zn_batch_all mem memb 0%R 2 m S (Some Q) Hm HS HQ) as (g0 & E0 & A0); [discriminate|apply Rle_refl|]. cbn [query_or] in A0.
    assert (A1 := @adapt _ (zn_calc_column mem) (@zn_calc_diagonal R NumR) (@zn_append_series R NumR) (@zn_append_query R NumR) m S Q g0
      (fun g => (forall c, c + m <= length S -> exists g', zn_calc_column mem g c = Ok (g', Dc h D c)) /\ (forall d, has_diag m S Q d -> exists g', zn_calc_diagonal g d = Ok (g', Dd h w D d)))).
    destruct (@gives_answers R (num R) _ (zn_calc_column mem) (@zn_calc_diagonal R NumR) m (fin S) (fin Q) g0 D) as (I0 & Gc & Gd); [exact Hm|rewrite map_length; exact HS|rewrite map_length; exact HQ| |].
    { intros H Hc. destruct A1 with (H := H) as (g & Eg & C1 & D1); [|exact Hc|].
      - intros H' Hc'. destruct (A0 H' Hc') as (g & Eg & [D1 _] & C1). exists g. split; [exact Eg|]. split; [intros c Hcol; exact (C1 c Hcol)|]. intros d Hd. exists g. exact (D1 d Hd).
      - exists g. split; [exact Eg|]. rewrite !map_length. split; [exact C1|]. intros d Hd. apply D1. eapply has_diag_length; [..|exact Hd]; rewrite map_length; reflexivity. }
    cbv zeta in *. rewrite !map_length in *.
    assert (EX : exists a0 : any (num R) (@zn R) (@mpcons R), any_new (@zn R) (@mpcons R) shuffle (Z.of_nat m) [fin S] (Some [fin Q]) None = Ok a0 /\ ca_tmb (an_calc a0) = (-1)%Z /\ ca_ndim (an_calc a0) = 1 /\ ca_m (an_calc a0) = Z.of_nat m /\
       an_series a0 = [fin S] /\ an_query a0 = [fin Q] /\ ca_gens (an_calc a0) = [] /\ ca_cons (an_calc a0) = [] /\ ca_self (an_calc a0) = false).
    { unfold any_new. cbn [length negb Nat.eqb ca_new bind]. eexists. split; [reflexivity|]. cbn. repeat split; reflexivity. }
    destruct EX as (a0 & En & Et & End & Em & Es & Eq & Eg & Ec & Eself).
    assert (HB : built shuffle (Z.of_nat m) [fin S] (Some [fin Q]) None h w a0).
    { split; [exact HSH|]. split; [exact En|]. cbn [hd]. rewrite !map_length. repeat split; lia. }
    set (cs := [(Forward (mplr_init h w), [0]); (Reverse (mplr_init w h), [0])] : list (@mpcons R * list nat)).
    destruct (built_fresh [(g0, 0)] cs HB) as (b' & Hf & HP & _).
    assert (Hord : forall d, In d (an_order a0) -> on_matrix h w d) by exact (fr_order Hf).
    assert (Ens : ca_ns (an_calc a0) = Z.of_nat w) by exact (fr_ns Hf).
    assert (Enq : ca_nq (an_calc a0) = Z.of_nat h) by exact (fr_nq Hf).
    exists (with_parts a0 [(g0, 0)] cs). split.
    { unfold pair_calculator. rewrite En. cbn [bind]. unfold any_add_generator. rewrite End, Es, Eself, Em, Eq. cbn [Z.ltb Z.leb Z.compare orb Z.of_nat Pos.of_succ_nat negb]. cbn [Z.to_nat getitem nth_error bind].
      assert (Ep : znorm_prepare mem memb (Z.of_nat m) (fin S) (Some (fin Q)) = Ok g0) by (unfold znorm_prepare; rewrite Nat2Z.id; exact E0).
      rewrite Ep. cbn [bind]. unfold add_consumer. cbn [ca_upd ca_ns ca_nq ca_gens ca_cons ca_last an_calc bind length]. rewrite Eg, Ec, Ens, Enq, !Nat2Z.id. cbn [app].
      unfold with_parts, ca_upd. cbn [an_series an_query an_order an_total an_next an_done ca_self ca_m ca_ndim ca_ns ca_nq ca_tmb ca_last]. rewrite ?Ens, ?Enq, ?Es, ?Eself, ?Em, ?End, ?Eq. reflexivity. }
    exists (an_order a0). split; [exact HP|]. intros calls p Hcalls Hmix.
    pose proof (mixture_diags Hcalls Hmix) as HO. destruct (@mixture_parts h w (an_order a0) calls p Hmix) as [_ P2].
    assert (Hd : forall d, In d (diags_in (snd p)) -> on_matrix h w d) by (intros d Hd; apply Hord, P2, Hd).
    assert (Ff : fine false h w (-1) (snd p)).
    { split; [unfold only_diags in HO; rewrite HO; intros c []|]. intros d Hd'. split; [apply Hd, Hd'|]. split; [lia|discriminate]. }
    assert (Fr : fine false w h (-1) (map flip (snd p))).
    { split; [rewrite cols_flip; unfold only_diags in HO; rewrite HO; intros c []|]. intros d Hd'. rewrite diags_flip in Hd'. apply in_map_iff in Hd'. destruct Hd' as (d' & <- & Hd'). apply Hd in Hd'. unfold on_matrix in *. split; [lia|]. split; [lia|discriminate]. }
    destruct (@profile_of R NumR OrdR false h w (-1) D) with (t := snd p) as (cf & Ef & L1 & _ & V1); [reflexivity|discriminate|lia|exact Ff|].
    destruct (@profile_of R NumR OrdR false w h (-1) (fun r c => D c r)) with (t := map flip (snd p)) as (cr & Er & L2 & _ & V2); [reflexivity|discriminate|lia|exact Fr|].
    assert (R2 : forall cns, receive mpc_step (mixed_calls (fun _ => Dc h D) (fun _ => Dd h w D) false (ca_tmb (an_calc a0)) (snd p)) cs cns ->
      exists a, foldM (any_call (zn_calc_column mem) (@zn_calc_diagonal R NumR) mpc_step set_order) calls (with_parts a0 [(g0, 0)] cs) = Ok a /\ ca_cons (an_calc a) = cns).
    { eapply (fun gens HI HG => proj2 (@any_mixed_at R (num R) (@zn R) (@mpcons R) _ _ mpc_step set_order shuffle (Z.of_nat m) [fin S] (Some [fin Q]) None h w a0 gens cs _ _ _ calls p HB HSO HI HG Gc Gd Hmix)).
      - intros c ids id [E|[E|[]]] Hid; injection E as <- <-; destruct Hid as [<-|[]]; cbn; lia.
      - intros id g d Hg. destruct id as [|[|id]]; cbn in Hg; try discriminate. injection Hg as <- <-. exact I0. }
    rewrite Et in R2. destruct (R2 [(Forward cf, [0]); (Reverse cr, [0])]) as (a & Ea & Eca).
    { constructor; [|constructor; [|constructor]]; cbn [fst snd]; (split; [reflexivity|]).
      - rewrite run_forward. cbn [is_self]. rewrite Ef. reflexivity.
      - rewrite run_reverse by exact HO. cbn [is_self]. rewrite Er. reflexivity. }
    exists a, cf, cr. split; [exact Ea|]. split; [exact Eca|]. split.
    - split; [exact L1|]. intros j Hj. destruct (V1 j Hj) as (v & i & Ev & _ & HSm). exists v, i. split; [exact Ev|]. eapply smallest_ext; [|exact HSm]. intro r. unfold given. cbn beta. unfold only_diags in HO. rewrite HO. split.
      + intros (Hr & _ & [[]|[H|[H _]]]); [auto|discriminate].
      + intros (Hr & H). split; [exact Hr|]. split; [unfold far; cbn [fst snd]; apply Z.ltb_lt; lia|auto].
    - split; [exact L2|]. intros j Hj. destruct (V2 j Hj) as (v & i & Ev & _ & HSm). exists v, i. split; [exact Ev|]. eapply smallest_ext; [|exact HSm]. intro r. unfold given. cbn beta. rewrite cols_flip, diags_flip. unfold only_diags in HO. rewrite HO. split.
      + intros (Hr & _ & [[]|[H|[H _]]]); [|discriminate]. split; [exact Hr|]. apply in_map_iff in H. destruct H as (d & Ed & Hd'). replace (Z.of_nat r - Z.of_nat j)%Z with d by lia. exact Hd'.
      + intros (Hr & H). split; [exact Hr|]. split; [unfold far; cbn [fst snd]; apply Z.ltb_lt; lia|]. right. left. apply in_map_iff. exists (Z.of_nat r - Z.of_nat j)%Z. split; [lia|exact H].
  Qed.
End Pair.

(** ** Two stages of a calculation *)
Lemma mixture_prefix h w order calls calls' p' : mixture h w order (calls ++ calls') p' -> exists p, mixture h w order calls p /\ forall d, In d (diags_in (snd p)) -> In d (diags_in (snd p')).
Proof.
  revert p'. induction calls' as [|call calls' IH] using rev_ind; intros p' H.
  - rewrite app_nil_r in H. exists p'. auto.
  - rewrite app_assoc in H. apply mixture_last in H. destruct H as (p0 & H0 & Hs). destruct (IH p0 H0) as (p & Hp & Hd). exists p. split; [exact Hp|]. intros d Hd'. specialize (Hd d Hd').
    inversion Hs; subst; cbn [snd] in *; rewrite diags_snoc; apply in_app_iff; left; exact Hd.
Qed.

Lemma smallest_less (P P' : nat -> Prop) (f : nat -> R) v v' i i' : (forall r, P r -> P' r) -> smallest P (fun r => Fin (f r)) v i -> smallest P' (fun r => Fin (f r)) v' i' -> fleb v' v = true.
Proof.
  intros H [[-> _]|(_ & r & Hr & _ & -> & _)] [[-> HA']|(_ & r' & _ & _ & -> & HA')]; try reflexivity.
  - specialize (HA' r (H r Hr)). discriminate.
  - specialize (HA' r (H r Hr)). cbn [fleb]. rewrite HA'. reflexivity.
Qed.
Lemma smallest_least (P : nat -> Prop) (f : nat -> R) v i x : (forall r, P r -> (x <= f r)%R) -> smallest P (fun r => Fin (f r)) v i -> fleb (Fin x) v = true.
Proof.
  intros H [[-> _]|(_ & r & Hr & _ & -> & _)]; [reflexivity|]. cbn [fleb fltb nltb NumR]. rewrite (proj2 (Rltb_false _ _)); [reflexivity|]. apply H, Hr.
Qed.
Lemma smallest_all (P : nat -> Prop) (f : nat -> R) v i x : least P f x -> smallest P (fun r => Fin (f r)) v i -> v = Fin x.
Proof.
  intros [(r & Hr & <-) HL] [[-> HA]|(_ & r' & Hr' & _ & -> & HA)]; [specialize (HA r Hr); discriminate|]. f_equal. apply Rle_antisym; [|auto].
  specialize (HA r Hr). cbn [fltb nltb NumR] in HA. apply Rltb_false in HA. exact HA.
Qed.

Section Anytime.
  Variables (mem : nat -> num R) (memb : nat -> bool) (set_order : list nat -> list nat) (shuffle : list Z -> list Z).
  Hypothesis HSO : orders_sets set_order.
  Hypothesis HSH : forall l, Permutation (shuffle l) l.
  Variable m : nat.
  Variable C : list (list R).
  Hypothesis Hm : 0 < m.
  Hypothesis HC : forall S, In S C -> m <= length S.
  Notation n := (length C).
  Notation ser := (ser C).
  Notation cols := (cols m C).
  Notation dm := (dm m C).

  (** Calls of calculate: for every calculator its interruption, and the fraction *)
  Definition ocall : Type := ((nat -> nat -> bool) * request).
  Definition full : ocall := (fun _ => never, RFloat (Fin 1%Q)).
  Definition call_of (k : nat) (c : ocall) : acall := ADiags (fst c k) (snd c).
  Notation step := (any_call (zn_calc_column mem) (@zn_calc_diagonal R NumR) mpc_step set_order).

  (** Profiles of series [s] against series [t], after some calls and after more calls *)
  Definition two_rows (calls : list ocall) (s t : nat) (row1 row2 : list (num R)) : Prop :=
    length row1 = cols s /\ length row2 = cols s /\
    forall i, i < cols s -> exists v1 v2, nth_error row1 i = Some v1 /\ nth_error row2 i = Some v2 /\ fleb v2 v1 = true /\ fleb (Fin (dm s t i)) v2 = true /\
      ((exists calls', calls = calls' ++ [full]) -> v2 = Fin (dm s t i)).

  Lemma rows_two calls s t D P1 P2 row1 row2 : s < n -> t < n -> (forall r i, r < cols t -> i < cols s -> D r i = Fin (zdef (sub m (ser t) r) (sub m (ser s) i))) ->
    minima D (cols s) (fun i r => r < cols t /\ P1 i r) row1 -> minima D (cols s) (fun i r => r < cols t /\ P2 i r) row2 -> (forall i r, P1 i r -> P2 i r) ->
    ((exists calls', calls = calls' ++ [full]) -> forall i r, i < cols s -> r < cols t -> P2 i r) -> two_rows calls s t row1 row2.
  Proof.
    intros Hs Ht HD [L1 V1] [L2 V2] HP Hall. split; [exact L1|]. split; [exact L2|]. intros i Hi. destruct (V1 i Hi) as (v1 & i1 & E1 & S1), (V2 i Hi) as (v2 & i2 & E2 & S2). exists v1, v2. split; [exact E1|]. split; [exact E2|].
    set (f := fun r => zdef (sub m (ser t) r) (sub m (ser s) i)).
    assert (HF : forall P v k, smallest (fun r => r < cols t /\ P i r) (fun r => D r i) v k -> smallest (fun r => r < cols t /\ P i r) (fun r => Fin (f r)) v k).
    { intros P v k [[-> HA]|(Hlt & r & [Hr HPr] & -> & -> & HA)]; [left|right].
      - split; [reflexivity|]. intros r [Hr HPr]. specialize (HA r (conj Hr HPr)). rewrite HD in HA by assumption. exact HA.
      - rewrite (HD r i Hr Hi) in *. split; [exact Hlt|]. exists r. split; [auto|]. do 2 (split; [reflexivity|]). intros r' [Hr' HPr']. specialize (HA r' (conj Hr' HPr')). rewrite HD in HA by assumption. exact HA. }
    apply HF in S1. apply HF in S2. split; [eapply smallest_less; [|exact S1|exact S2]; intros r [? ?]; auto|]. split.
    - eapply smallest_least; [|exact S2]. intros r [Hr _]. unfold POstinato.dm. apply rmin_le. unfold dists. apply in_map_iff. exists r. split; [reflexivity|]. apply in_seq. unfold POstinato.cols in *. lia.
    - intro Hf. eapply smallest_all; [|exact S2]. specialize (Hall Hf). destruct (@dm_best m C Hm HC s t i Ht) as [(r & [_ Hr] & Er) HL]. fold (ser t) in Hr. split.
      + exists r. split; [|exact Er]. assert (r < cols t) by (unfold POstinato.cols; unfold POstinato.ser in *; lia). split; [assumption|]. apply Hall; assumption.
      + intros r' [Hr' _]. apply HL. split; [exact Ht|]. fold (ser t). unfold POstinato.cols in Hr'. unfold POstinato.ser in *. lia.
  Qed.

  Lemma pair_two i j : i < n -> j < n -> exists a0, pair_calculator mem memb shuffle (Z.of_nat m) (fin (ser j)) (fin (ser i)) = Ok a0 /\
    forall k c1 c2, Forall (fun c : ocall => sensible (snd c)) (c1 ++ c2) ->
    exists a1 a2 f1 r1 f2 r2, foldM step (map (call_of k) c1) a0 = Ok a1 /\ foldM step (map (call_of k) c2) a1 = Ok a2 /\
      ca_cons (an_calc a1) = [(Forward f1, [0]); (Reverse r1, [0])] /\ ca_cons (an_calc a2) = [(Forward f2, [0]); (Reverse r2, [0])] /\
      two_rows (c1 ++ c2) j i (mplr_mp f1) (mplr_mp f2) /\ two_rows (c1 ++ c2) i j (mplr_mp r1) (mplr_mp r2).
  Proof.
    intros Hi Hj. pose proof (ser_long C HC Hi) as Li. pose proof (ser_long C HC Hj) as Lj.
    destruct (@pair_ok mem memb set_order shuffle HSO HSH m (ser j) (ser i) Hm Lj Li) as (a0 & E0 & order & HP & HR). exists a0. split; [exact E0|]. intros k c1 c2 Hc. fold (cols i) (cols j) in *.
    assert (Hord : forall d, In d order -> on_matrix (cols i) (cols j) d) by (intros d Hd; apply (Permutation_in d HP), in_pyrange in Hd; unfold on_matrix; lia).
    assert (Hcc : Forall diag_call (map (call_of k) (c1 ++ c2))) by (apply Forall_map; eapply Forall_impl; [|exact Hc]; intros c Hs; exact Hs).
    destruct (@mixture_total (cols i) (cols j) order) with (calls := map (call_of k) (c1 ++ c2)) as (p2 & M2); [unfold POstinato.cols; lia|unfold POstinato.cols; lia|exact Hord|eapply Forall_impl; [|exact Hcc]; intros [|]; [intros []|auto]|].
    pose proof M2 as M2'. rewrite map_app in M2'. destruct (@mixture_prefix _ _ _ _ _ _ M2') as (p1 & M1 & Hsub).
    destruct (HR _ p2 Hcc M2) as (a2 & f2 & r2 & E2 & C2 & F2 & R2). rewrite map_app in Hcc. apply Forall_app in Hcc. destruct (HR _ p1 (proj1 Hcc) M1) as (a1 & f1 & r1 & E1 & C1 & F1 & R1).
    exists a1, a2, f1, r1, f2, r2. split; [exact E1|]. rewrite map_app, foldM_app, E1 in E2. split; [exact E2|]. split; [exact C1|]. split; [exact C2|].
    assert (Hfull : (exists calls', c1 ++ c2 = calls' ++ [full]) -> forall d, on_matrix (cols i) (cols j) d -> In d (diags_in (snd p2))).
    { intros (calls' & Ef) d Hd. rewrite Ef, map_app in M2. change (map (call_of k) [full]) with [ADiags never (RFloat (Fin 1%Q))] in M2. rewrite (@diags_complete (cols i) (cols j) order) with (4 := M2); [|unfold POstinato.cols; lia|unfold POstinato.cols; lia|exact Hord].
      apply (Permutation_in d (Permutation_sym HP)), in_pyrange. unfold on_matrix in Hd. lia. }
    assert (Z1 : forall r c, r < cols i -> c < cols j -> zdist 0 (sub m (ser i) r) (sub m (ser j) c) = zdef (sub m (ser i) r) (sub m (ser j) c)).
    { intros r c Hr Hcc'. apply zdist_def. unfold sub. rewrite firstn_length, skipn_length. unfold POstinato.cols in *. lia. }
    split.
    - eapply rows_two with (D := entry (zdist 0) m (ser j) (ser i)) (P1 := fun c r => In (Z.of_nat c - Z.of_nat r)%Z (diags_in (snd p1))) (P2 := fun c r => In (Z.of_nat c - Z.of_nat r)%Z (diags_in (snd p2))); auto.
      + intros r c Hr Hcc'. unfold entry. f_equal. apply Z1; assumption.
      + intros Hf c r Hcc' Hr. apply Hfull; [exact Hf|]. unfold on_matrix. lia.
    - eapply rows_two with (D := fun r c => entry (zdist 0) m (ser j) (ser i) c r) (P1 := fun c r => In (Z.of_nat r - Z.of_nat c)%Z (diags_in (snd p1))) (P2 := fun c r => In (Z.of_nat r - Z.of_nat c)%Z (diags_in (snd p2))); auto.
      + intros r c Hr Hcc'. unfold entry. f_equal. rewrite Z1 by assumption. rewrite <- !zdist_def by (unfold sub; rewrite firstn_length, skipn_length; unfold POstinato.cols in *; lia).
        apply zdist_sym. unfold sub. rewrite !firstn_length, !skipn_length. unfold POstinato.cols in *. lia.
      + intros Hf c r Hcc' Hr. apply Hfull; [exact Hf|]. unfold on_matrix. lia.
  Qed.

  (** ** All calculators *)
  Lemma mapM_exists {S T} (f : S -> res T) l : (forall x, In x l -> exists y, f x = Ok y) -> exists ys, mapM f l = Ok ys /\ Forall2 (fun x y => f x = Ok y) l ys.
  Proof.
    clear. induction l as [|x l IH]; intro H; [exists []; split; [reflexivity|constructor]|]. destruct (H x ltac:(left; reflexivity)) as (y & Ey). destruct IH as (ys & Eys & F); [intros; apply H; right; assumption|].
    exists (y :: ys). cbn [mapM]. rewrite Ey. cbn [bind]. rewrite Eys. cbn [bind]. split; [reflexivity|]. constructor; assumption.
  Qed.
  Lemma forall2_nth {S T} (P : S -> T -> Prop) l l' k x : Forall2 P l l' -> nth_error l k = Some x -> exists y, nth_error l' k = Some y /\ P x y.
  Proof. clear. intro H. revert k. induction H as [|a b l l' Hab _ IH]; intros [|k] E; try discriminate; [injection E as <-; exists b; auto|]. apply IH, E. Qed.
  Lemma forall2_length {S T} (P : S -> T -> Prop) l l' : Forall2 P l l' -> length l = length l'.
  Proof. clear. induction 1; cbn; congruence. Qed.
  Lemma mapM_length {S T} (f : S -> res T) l : forall ys, mapM f l = Ok ys -> length ys = length l.
  Proof. clear. induction l as [|x l IH]; intros ys E; [injection E as <-; reflexivity|]. cbn [mapM] in E. apply bind_ok in E. destruct E as (y & _ & E). apply bind_ok in E. destruct E as (zs & Ez & E). injection E as <-. cbn. f_equal. apply IH, Ez. Qed.
  Lemma combine_nth_error {T} (l : list T) : forall k0 k x, nth_error l k = Some x -> nth_error (combine (seq k0 (length l)) l) k = Some (k0 + k, x).
  Proof.
    clear. induction l as [|y l IH]; intros k0 k x E; [destruct k; discriminate|]. cbn [length seq combine]. destruct k; cbn [nth_error] in *; [injection E as ->; rewrite Nat.add_0_r; reflexivity|].
    rewrite (IH (Datatypes.S k0) k x E). do 2 f_equal. lia.
  Qed.

  Lemma ost_steps calls : forall o,
    (forall k a, nth_error (os_calcs o) k = Some a -> exists b, foldM step (map (call_of k) calls) a = Ok b) ->
    exists o', foldM (fun o (c : ocall) => ost_calculate set_order (fst c) o (snd c)) calls o = Ok o' /\ os_mps o' = os_mps o /\
      forall k a, nth_error (os_calcs o) k = Some a -> exists b, nth_error (os_calcs o') k = Some b /\ foldM step (map (call_of k) calls) a = Ok b.
  Proof.
    clear. induction calls as [|c calls IH]; intros o H.
    - exists o. split; [reflexivity|]. split; [reflexivity|]. intros k a Ea. exists a. split; [exact Ea|reflexivity].
    - cbn [foldM]. unfold ost_calculate at 1.
      destruct (@mapM_exists _ _ (fun p => calculate_diagonals (@zn_calc_diagonal R NumR) mpc_step set_order (fst c (fst p)) (snd p) (snd c)) (combine (seq 0 (length (os_calcs o))) (os_calcs o))) as (cs & E & F).
      { intros [k a] Hin. apply In_nth_error in Hin. destruct Hin as (k' & Ek). assert (Hlen : k' < length (os_calcs o)). { pose proof (proj1 (nth_error_Some (combine (seq 0 (length (os_calcs o))) (os_calcs o)) k')) as Hl. rewrite combine_length, seq_length in Hl. rewrite Ek in Hl. specialize (Hl ltac:(discriminate)). lia. }
        destruct (nth_error (os_calcs o) k') as [a'|] eqn:Ea; [|apply nth_error_None in Ea; lia]. rewrite (combine_nth_error _ 0 _ Ea) in Ek. injection Ek as <- <-.
        destruct (H _ _ Ea) as (b & Eb). cbn [map foldM] in Eb. apply bind_ok in Eb. destruct Eb as (b1 & Eb1 & _). exists b1. exact Eb1. }
      rewrite E. cbn [bind].
      assert (N : forall k a, nth_error (os_calcs o) k = Some a -> exists b, nth_error cs k = Some b /\ step a (call_of k c) = Ok b).
      { intros k a Ea. destruct (forall2_nth _ F (combine_nth_error _ 0 _ Ea)) as (b & Eb & Hb). exists b. split; [exact Eb|exact Hb]. }
      assert (Lc : length cs = length (os_calcs o)). { apply forall2_length in F. rewrite combine_length, seq_length in F. lia. }
      destruct (IH (mkOst cs (os_mps o))) as (o' & Eo & Em & Hk).
      { intros k b Eb. cbn [os_calcs] in Eb. assert (Hlt : k < length (os_calcs o)) by (rewrite <- Lc; apply nth_error_Some; congruence). destruct (nth_error (os_calcs o) k) as [a|] eqn:Ea; [|apply nth_error_None in Ea; lia].
        destruct (N k a Ea) as (b' & Eb' & Hb). assert (b' = b) by congruence. subst b'. destruct (H k a Ea) as (z & Ez). cbn [map foldM] in Ez. rewrite Hb in Ez. cbn [bind] in Ez. eauto. }
      exists o'. split; [exact Eo|]. split; [exact Em|]. intros k a Ea. destruct (N k a Ea) as (b & Eb & Hb). destruct (Hk k b Eb) as (z & Ez & Hz). exists z. split; [exact Ez|]. cbn [map foldM]. rewrite Hb. exact Hz.
  Qed.

  (** ** The calculators that are made *)
  Fixpoint refs_from (k : nat) (P : list (nat * nat)) (s : nat) : list (nat * nat) :=
    match P with
    | [] => []
    | (i, j) :: P => (if s =? j then [(k, 0)] else if s =? i then [(k, 1)] else []) ++ refs_from (Datatypes.S k) P s
    end.
  Definition partners (P : list (nat * nat)) (s : nat) : list nat :=
    flat_map (fun ij => if s =? snd ij then [fst ij] else if s =? fst ij then [snd ij] else []) P.

  Lemma append_at_ok mps i ref : i < length mps -> exists mps', append_at mps i ref = Ok mps' /\ length mps' = length mps /\
    forall s l, nth_error mps s = Some l -> nth_error mps' s = Some (if s =? i then l ++ [ref] else l).
  Proof.
    clear. intro Hi. unfold append_at. unfold getitem. destruct (nth_error mps i) as [l0|] eqn:E; [|apply nth_error_None in E; lia]. cbn [bind]. rewrite setitem_ok by exact Hi. eexists. split; [reflexivity|]. split; [apply length_splice; cbn [length]; lia|].
    intros s l Es. rewrite nth_error_splice by lia. cbn [length]. destruct (Nat.eqb_spec s i) as [->|Hne].
    - rewrite Nat.ltb_irrefl. replace (i <? i + 1) with true by (symmetry; apply Nat.ltb_lt; lia). rewrite Nat.sub_diag. cbn [nth_error]. congruence.
    - destruct (Nat.ltb_spec s i); [exact Es|]. destruct (Nat.ltb_spec s (i + 1)); [lia|exact Es].
  Qed.

  Notation body := (fun o (ij : nat * nat) =>
      let '(i, j) := ij in
      do sj <- getitem (map (map (@Fin R)) C) j;
      do si <- getitem (map (map (@Fin R)) C) i;
      do a <- pair_calculator mem memb shuffle (Z.of_nat m) sj si;
      let k := length (os_calcs o) in
      do mps <- append_at (os_mps o) j (k, 0);
      do mps <- append_at mps i (k, 1);
      Ok (mkOst (os_calcs o ++ [a]) mps)).
  Lemma new_from P : Forall (fun ij => fst ij < snd ij /\ snd ij < n) P -> forall o, length (os_mps o) = n ->
    exists o' As, foldM body P o = Ok o' /\ os_calcs o' = os_calcs o ++ As /\
      Forall2 (fun ij a => pair_calculator mem memb shuffle (Z.of_nat m) (fin (ser (snd ij))) (fin (ser (fst ij))) = Ok a) P As /\
      length (os_mps o') = n /\ forall s l, nth_error (os_mps o) s = Some l -> nth_error (os_mps o') s = Some (l ++ refs_from (length (os_calcs o)) P s).
  Proof.
    induction 1 as [|[i j] P [Hij Hj] _ IH]; intros o Ho.
    - exists o, []. rewrite app_nil_r. split; [reflexivity|]. split; [reflexivity|]. split; [constructor|]. split; [exact Ho|]. intros s l E. cbn. rewrite app_nil_r. exact E.
    - cbn [fst snd] in *. cbn [foldM]. rewrite !getitem_fin by lia. cbn [bind]. destruct (@pair_two i j ltac:(lia) Hj) as (a & Ea & _). rewrite Ea. cbn [bind].
      destruct (@append_at_ok (os_mps o) j (length (os_calcs o), 0) ltac:(lia)) as (m1 & E1 & L1 & N1). rewrite E1. cbn [bind].
      destruct (@append_at_ok m1 i (length (os_calcs o), 1) ltac:(lia)) as (m2 & E2 & L2 & N2). rewrite E2. cbn [bind].
      destruct (IH (mkOst (os_calcs o ++ [a]) m2)) as (o' & As & Eo & Ec & F & Lm & Hk); [cbn; lia|]. cbn [os_calcs os_mps] in *. exists o', (a :: As). split; [exact Eo|]. split; [rewrite Ec, <- app_assoc; reflexivity|]. split; [constructor; [exact Ea|exact F]|]. split; [exact Lm|].
      intros s l Es. cbn [refs_from]. rewrite (Hk s _ (N2 s _ (N1 s l Es))). rewrite app_length. cbn [length]. rewrite (Nat.add_1_r (length (os_calcs o))). f_equal.
      destruct (Nat.eqb_spec s j) as [->|Hsj].
      + destruct (Nat.eqb_spec j i) as [->|_]; [lia|]. rewrite <- app_assoc. reflexivity.
      + destruct (Nat.eqb_spec s i) as [->|_]; [rewrite <- app_assoc; reflexivity|]. reflexivity.
  Qed.

  Lemma pairs_in k : Forall (fun ij => fst ij < snd ij /\ snd ij < k) (series_pairs k).
  Proof. clear. apply Forall_forall. intros [i j] H. unfold series_pairs in H. apply in_flat_map in H. destruct H as (i' & Hi%in_seq & H). apply in_map_iff in H. destruct H as (j' & E & Hj%in_seq). injection E as -> ->. cbn. lia. Qed.
  Lemma partners_pairs k s : s < k -> partners (series_pairs k) s = seq 0 s ++ seq (s + 1) (k - 1 - s).
  Proof.
    clear. intro Hs. unfold partners, series_pairs.
    set (f := fun ij : nat * nat => if s =? snd ij then [fst ij] else if s =? fst ij then [snd ij] else []).
    assert (FF : forall g l, flat_map f (flat_map g l) = flat_map (fun i : nat => flat_map f (g i)) l).
    { clear. intros g l. induction l as [|x l IH]; [reflexivity|]. cbn [flat_map]. rewrite flat_map_app, IH. reflexivity. }
    assert (FM : forall (g : nat -> nat * nat) l, flat_map f (map g l) = flat_map (fun j => f (g j)) l).
    { clear. intros g l. induction l as [|x l IH]; [reflexivity|]. cbn [map flat_map]. rewrite IH. reflexivity. }
    rewrite FF.
    assert (F0 : forall (g : nat -> list nat) l, (forall x, In x l -> g x = []) -> flat_map g l = []).
    { clear. intros g l. induction l as [|x l IH]; intro H; [reflexivity|]. cbn [flat_map]. rewrite H by (left; reflexivity). apply IH. intros; apply H; right; assumption. }
    assert (F1 : forall (g : nat -> list nat) (h : nat -> nat) l, (forall x, In x l -> g x = [h x]) -> flat_map g l = map h l).
    { clear. intros g h l. induction l as [|x l IH]; intro H; [reflexivity|]. cbn [flat_map map]. rewrite H by (left; reflexivity). cbn [app]. f_equal. apply IH. intros; apply H; right; assumption. }
    assert (R1 : forall i, i < s -> flat_map f (map (fun j => (i, j)) (seq (i + 1) (k - (i + 1)))) = [i]).
    { intros i Hi. rewrite FM. replace (k - (i + 1)) with ((s - (i + 1)) + (1 + (k - 1 - s))) by lia. rewrite !seq_app, !flat_map_app. replace (i + 1 + (s - (i + 1))) with s by lia. unfold f at 1 2 3. cbn [fst snd seq flat_map]. rewrite Nat.eqb_refl.
      rewrite (F0 _ (seq (i + 1) (s - (i + 1)))), (F0 _ (seq (s + 1) (k - 1 - s))); [reflexivity| |]; intros x Hx%in_seq; destruct (Nat.eqb_spec s x); [lia| |lia|]; destruct (Nat.eqb_spec s i); [lia|reflexivity|lia|reflexivity]. }
    assert (R2 : flat_map f (map (fun j => (s, j)) (seq (s + 1) (k - (s + 1)))) = seq (s + 1) (k - (s + 1))).
    { rewrite FM. rewrite (F1 _ (fun x => x)); [apply map_id|]. intros x Hx%in_seq. unfold f. cbn [fst snd]. destruct (Nat.eqb_spec s x); [lia|]. rewrite Nat.eqb_refl. reflexivity. }
    assert (R3 : forall i, s < i -> flat_map f (map (fun j => (i, j)) (seq (i + 1) (k - (i + 1)))) = []).
    { intros i Hi. rewrite FM. apply F0. intros x Hx%in_seq. unfold f. cbn [fst snd]. destruct (Nat.eqb_spec s x); [lia|]. destruct (Nat.eqb_spec s i); [lia|reflexivity]. }
    assert (Ek : seq 0 k = seq 0 s ++ s :: seq (s + 1) (k - 1 - s)) by (replace k with (s + (1 + (k - 1 - s))) at 1 by lia; rewrite !seq_app; reflexivity).
    rewrite Ek, flat_map_app. cbn [flat_map]. rewrite R2.
    rewrite (F1 _ (fun x => x) (seq 0 s)); [|intros x Hx%in_seq; apply R1; lia]. rewrite map_id. rewrite (F0 _ (seq (s + 1) (k - 1 - s))); [|intros x Hx%in_seq; apply R3; lia]. rewrite app_nil_r. do 2 f_equal. lia.
  Qed.

  Lemma rows_from calls (B1 B2 : list (any (num R) (@zn R) (@mpcons R))) s P : forall k0,
    (forall q i j, nth_error P q = Some (i, j) -> exists b1 b2 f1 r1 f2 r2, nth_error B1 (k0 + q) = Some b1 /\ nth_error B2 (k0 + q) = Some b2 /\
       ca_cons (an_calc b1) = [(Forward f1, [0]); (Reverse r1, [0])] /\ ca_cons (an_calc b2) = [(Forward f2, [0]); (Reverse r2, [0])] /\
       two_rows calls j i (mplr_mp f1) (mplr_mp f2) /\ two_rows calls i j (mplr_mp r1) (mplr_mp r2)) ->
    exists L : list (nat * (list (num R) * list (num R))), map fst L = partners P s /\ mapM (read_mp B1) (refs_from k0 P s) = Ok (map (fun x => fst (snd x)) L) /\
      mapM (read_mp B2) (refs_from k0 P s) = Ok (map (fun x => snd (snd x)) L) /\ Forall (fun x => two_rows calls s (fst x) (fst (snd x)) (snd (snd x))) L.
  Proof.
    clear. induction P as [|[i j] P IH]; intros k0 H.
    - exists []. repeat split; constructor.
    - destruct (IH (Datatypes.S k0)) as (L & L1 & L2 & L3 & L4).
      { intros q i' j' E. destruct (H (Datatypes.S q) i' j' E) as (b1 & b2 & f1 & r1 & f2 & r2 & HH). exists b1, b2, f1, r1, f2, r2. replace (Datatypes.S k0 + q) with (k0 + Datatypes.S q) by lia. exact HH. }
      destruct (H 0 i j eq_refl) as (b1 & b2 & f1 & r1 & f2 & r2 & E1 & E2 & C1 & C2 & T1 & T2). rewrite Nat.add_0_r in *. cbn [refs_from partners flat_map fst snd].
      assert (RD : forall B b q, nth_error B k0 = Some b -> read_mp B (k0, q) = do c <- getitem (ca_cons (an_calc b)) q; Ok (mp_of (fst c))) by (intros B b q Eb; unfold read_mp, getitem; cbn [fst snd]; rewrite Eb; reflexivity).
      destruct (s =? j) eqn:Ej; [|destruct (s =? i) eqn:Ei].
      + apply Nat.eqb_eq in Ej. subst s. exists ((i, (mplr_mp f1, mplr_mp f2)) :: L). cbn [map app fst snd]. split; [f_equal; exact L1|]. cbn [mapM]. rewrite !(RD _ _ _ E1), !(RD _ _ _ E2), C1, C2. cbn [getitem nth_error bind fst mp_of]. rewrite L2, L3. cbn [bind].
        split; [reflexivity|]. split; [reflexivity|]. constructor; [exact T1|exact L4].
      + apply Nat.eqb_eq in Ei. subst s. exists ((j, (mplr_mp r1, mplr_mp r2)) :: L). cbn [map app fst snd]. split; [f_equal; exact L1|]. cbn [mapM]. rewrite !(RD _ _ _ E1), !(RD _ _ _ E2), C1, C2. cbn [getitem nth_error bind fst mp_of]. rewrite L2, L3. cbn [bind].
        split; [reflexivity|]. split; [reflexivity|]. constructor; [exact T2|exact L4].
      + exists L. cbn [app]. auto.
  Qed.

  (** ** The state after some calls, and after more calls *)
  Lemma ost_two c1 c2 : Forall (fun c : ocall => sensible (snd c)) (c1 ++ c2) ->
    exists o0 o1 o2, ost_new mem memb shuffle (map (map (@Fin R)) C) (Z.of_nat m) = Ok o0 /\
      foldM (fun o (c : ocall) => ost_calculate set_order (fst c) o (snd c)) c1 o0 = Ok o1 /\
      foldM (fun o (c : ocall) => ost_calculate set_order (fst c) o (snd c)) c2 o1 = Ok o2 /\
      os_mps o2 = os_mps o1 /\ length (os_mps o1) = n /\
      forall s, s < n -> exists refs L, nth_error (os_mps o1) s = Some refs /\ map fst L = others C s /\ mapM (read_mp (os_calcs o1)) refs = Ok (map (fun x => fst (snd x)) L) /\
        mapM (read_mp (os_calcs o2)) refs = Ok (map (fun x => snd (snd x)) L) /\ Forall (fun x => two_rows (c1 ++ c2) s (fst x) (fst (snd x)) (snd (snd x))) L.
  Proof.
    intro Hc. destruct (new_from (pairs_in n) (mkOst [] (repeat [] n))) as (o0 & As & E0 & Ec & F & Lm & Hr); [apply repeat_length|]. cbn [os_calcs os_mps app length] in *. subst As.
    assert (HA : forall k a, nth_error (os_calcs o0) k = Some a -> exists i j, nth_error (series_pairs n) k = Some (i, j) /\ i < n /\ j < n /\ pair_calculator mem memb shuffle (Z.of_nat m) (fin (ser j)) (fin (ser i)) = Ok a).
    { intros k a Ea. assert (Hk : k < length (series_pairs n)) by (rewrite (forall2_length F); apply nth_error_Some; congruence). destruct (nth_error (series_pairs n) k) as [[i j]|] eqn:Ep; [|apply nth_error_None in Ep; lia].
      destruct (forall2_nth _ F Ep) as (a' & Ea' & Hp). assert (a' = a) by congruence. subst a'. exists i, j. split; [reflexivity|]. pose proof (pairs_in n) as HF. rewrite Forall_forall in HF. specialize (HF _ (nth_error_In _ _ Ep)). cbn [fst snd] in *. repeat split; [lia|lia|exact Hp]. }
    destruct (@ost_steps c1 o0) as (o1 & E1 & M1 & H1).
    { intros k a Ea. destruct (HA k a Ea) as (i & j & _ & Hi & Hj & Hp). destruct (@pair_two i j Hi Hj) as (a' & Ea' & HT). assert (a' = a) by congruence. subst a'. destruct (HT k c1 c2 Hc) as (a1 & _ & _ & _ & _ & _ & X & _). eauto. }
    assert (HB : forall k i j, nth_error (series_pairs n) k = Some (i, j) -> exists a b1 a2 f1 r1 f2 r2, nth_error (os_calcs o0) k = Some a /\ nth_error (os_calcs o1) k = Some b1 /\ foldM step (map (call_of k) c2) b1 = Ok a2 /\
       ca_cons (an_calc b1) = [(Forward f1, [0]); (Reverse r1, [0])] /\ ca_cons (an_calc a2) = [(Forward f2, [0]); (Reverse r2, [0])] /\
       two_rows (c1 ++ c2) j i (mplr_mp f1) (mplr_mp f2) /\ two_rows (c1 ++ c2) i j (mplr_mp r1) (mplr_mp r2)).
    { intros k i j Ep. destruct (forall2_nth _ F Ep) as (a & Ea & Hp). cbn [fst snd] in Hp. destruct (HA k a Ea) as (i' & j' & Ep' & Hi & Hj & _). assert (X : (i', j') = (i, j)) by congruence. injection X as -> ->.
      destruct (@pair_two i j Hi Hj) as (a' & Ea' & HT). assert (a' = a) by congruence. subst a'. destruct (HT k c1 c2 Hc) as (a1 & a2 & f1 & r1 & f2 & r2 & X1 & X2 & X3). destruct (H1 k a Ea) as (b1 & Eb1 & Xb). assert (b1 = a1) by congruence. subst b1.
      exists a, a1, a2, f1, r1, f2, r2. auto. }
    destruct (@ost_steps c2 o1) as (o2 & E2 & M2 & H2).
    { intros k b Eb. assert (Hk : k < length (os_calcs o0) \/ length (os_calcs o0) <= k) by lia. destruct Hk as [Hk|Hk].
      - destruct (nth_error (os_calcs o0) k) as [a|] eqn:Ea; [|apply nth_error_None in Ea; lia]. destruct (HA k a Ea) as (i & j & Ep & _). destruct (HB k i j Ep) as (a' & b1 & a2 & _ & _ & _ & _ & _ & Eb1 & X & _). assert (b1 = b) by congruence. subst b1. eauto.
      - exfalso. clear - E1 Eb Hk. revert o0 E1 Hk. induction c1 as [|c c1' IH]; intros o0 E1 Hk; [injection E1 as <-; assert (k < length (os_calcs o0)) by (apply nth_error_Some; congruence); lia|].
        cbn [foldM] in E1. apply bind_ok in E1. destruct E1 as (o' & Eo & E1). apply (IH o' E1). unfold ost_calculate in Eo. apply bind_ok in Eo. destruct Eo as (cs & Ecs & Eo). injection Eo as <-. cbn [os_calcs].
        apply mapM_length in Ecs. rewrite combine_length, seq_length in Ecs. lia. }
    exists o0, o1, o2. split; [unfold ost_new; rewrite map_length; exact E0|]. split; [exact E1|]. split; [exact E2|]. split; [exact M2|]. rewrite M1. split; [exact Lm|]. intros s Hs.
    exists (refs_from 0 (series_pairs n) s).
    destruct (@rows_from (c1 ++ c2) (os_calcs o1) (os_calcs o2) s (series_pairs n) 0) as (L & L1 & L2 & L3 & L4).
    { intros q i j Ep. destruct (HB q i j Ep) as (a & b1 & a2 & f1 & r1 & f2 & r2 & _ & Eb & Ef & X). destruct (H2 q b1 Eb) as (b2 & Eb2 & Ef2). assert (b2 = a2) by congruence. subst b2. exists b1, a2, f1, r1, f2, r2. cbn [Nat.add]. tauto. }
    exists L. split; [|split; [|auto]].
    - rewrite (Hr s []); [reflexivity|]. rewrite nth_error_repeat'. rewrite (proj2 (Nat.ltb_lt _ _) Hs). reflexivity.
    - rewrite L1, partners_pairs by exact Hs. symmetry. apply others_eq. exact Hs.
  Qed.

  (** ** The radii *)
  Notation sle := (fun x y : num R => sort_le x y = true).
  Notation fle := (fun x y : num R => fleb x y = true).
  Lemma insert_least x l : Forall (sle x) l -> insert x l = x :: l.
  Proof. clear. intro H. destruct H as [|y l Hy _]; [reflexivity|]. cbn [insert]. rewrite Hy. reflexivity. Qed.
  Lemma sle_flip (x y : num R) : sort_le x y = false -> sort_le y x = true.
  Proof. clear. intro H. destruct (sort_le_total x y) as [E|E]; [congruence|exact E]. Qed.
  Lemma sle_forall x y l : sort_le x y = true -> Forall (sle y) l -> Forall (sle x) l.
  Proof. clear. intros H HF. eapply Forall_impl; [|exact HF]. intros z Hz. cbn beta in *. eapply sort_le_trans; eassumption. Qed.
  Lemma insert_mono l l' : Forall2 sle l l' -> StronglySorted sle l -> StronglySorted sle l' -> forall x y, sort_le x y = true -> Forall2 sle (insert x l) (insert y l').
  Proof.
    clear. induction 1 as [|a b l l' Hab HF IH]; intros S1 S2 x y Hxy; [cbn; constructor; [exact Hxy|constructor]|].
    apply StronglySorted_inv in S1. apply StronglySorted_inv in S2. destruct S1 as [S1 A1], S2 as [S2 A2]. specialize (IH S1 S2). cbn [insert]. destruct (sort_le x a) eqn:Exa, (sort_le y b) eqn:Eyb.
    - repeat constructor; assumption.
    - constructor; [exact (sort_le_trans _ _ _ Exa Hab)|]. rewrite <- (insert_least A1). apply IH. exact (sort_le_trans _ _ _ Hab (sle_flip _ _ Eyb)).
    - constructor; [exact (sort_le_trans _ _ _ (sle_flip _ _ Exa) Hxy)|]. rewrite <- (insert_least A2). apply IH. exact (sort_le_trans _ _ _ Hxy Eyb).
    - constructor; [exact Hab|]. apply IH, Hxy.
  Qed.
  Lemma fsort_mono l l' : Forall2 sle l l' -> Forall2 sle (fsort l) (fsort l').
  Proof. clear. induction 1 as [|a b l l' Hab HF IH]; [constructor|]. cbn [fsort]. apply insert_mono; [exact IH|apply fsort_sorted|apply fsort_sorted|exact Hab]. Qed.
  Lemma fle_sle l l' : Forall2 fle l l' -> Forall2 sle l l'.
  Proof. clear. induction 1 as [|a b l l' H _ IH]; constructor; [|exact IH]. destruct a, b; cbn in *; try discriminate; try reflexivity; exact H. Qed.
  Lemma sle_fle (x y : num R) : isnan y = false -> sort_le x y = true -> fleb x y = true.
  Proof. clear. unfold sort_le. intros ->. destruct (isnan x); [discriminate|]. auto. Qed.
  Lemma fle_nan l l' : Forall2 fle l l' -> Forall (fun v => isnan v = false) l'.
  Proof. clear. induction 1 as [|a b l l' H _ IH]; constructor; [|exact IH]. destruct a, b; cbn in *; try reflexivity; discriminate. Qed.
  Lemma kth_mono l l' k : Forall2 fle l l' -> k < length l -> exists v v', nth_error (fsort l) k = Some v /\ nth_error (fsort l') k = Some v' /\ fleb v v' = true.
  Proof.
    clear. intros H Hk. pose proof (fsort_mono (fle_sle H)) as HS. assert (Hk' : k < length (fsort l)) by (rewrite fsort_length; exact Hk). destruct (nth_error (fsort l) k) as [v|] eqn:E; [|apply nth_error_None in E; lia].
    destruct (forall2_nth _ HS E) as (v' & E' & Hv). exists v, v'. split; [reflexivity|]. split; [exact E'|]. apply sle_fle; [|exact Hv]. pose proof (fle_nan H) as HN. rewrite Forall_forall in HN. apply HN. apply (Permutation_in v' (Permutation_sym (fsort_perm l'))). eapply nth_error_In, E'.
  Qed.
  Lemma fle_trans (a b c : num R) : fleb a b = true -> fleb b c = true -> fleb a c = true.
  Proof. clear. apply fleb_trans. Qed.
  Lemma fmax_mono (a b c d : num R) : fleb a b = true -> fleb c d = true -> fleb (fmaximum a c) (fmaximum b d) = true.
  Proof.
    clear. intros H1 H2. unfold fmaximum.
    assert (NA : isnan a = false) by (destruct a; [discriminate|reflexivity..]). assert (NB : isnan b = false) by (destruct a, b; try discriminate; reflexivity). assert (NC : isnan c = false) by (destruct c; [discriminate|reflexivity..]). assert (ND : isnan d = false) by (destruct c, d; try discriminate; reflexivity).
    rewrite NA, NB, NC, ND. assert (G : forall x y : num R, isnan x = false -> isnan y = false -> fltb x y = false -> fleb y x = true).
    { intros [| |x|] [| |y|]; cbn; intros X Y Z; try discriminate; try reflexivity. rewrite Z. reflexivity. }
    destruct (fltb a c) eqn:E1, (fltb b d) eqn:E2; try assumption.
    - eapply fle_trans; [exact H2|]. apply G; assumption.
    - eapply fle_trans; [exact H1|]. apply fltb_fleb, E2.
  Qed.
  Lemma amax_mono l l' : Forall2 fle l l' -> l <> [] -> exists v v', amax l = Ok v /\ amax l' = Ok v' /\ fleb v v' = true.
  Proof.
    clear. intros H Hne. destruct H as [|a b l l' Hab HF]; [congruence|]. clear Hne. unfold amax. do 2 eexists. split; [reflexivity|]. split; [reflexivity|]. revert a b Hab. induction HF as [|c d l l' Hcd _ IH]; intros a b Hab; [exact Hab|]. cbn [fold_left]. apply IH, fmax_mono; assumption.
  Qed.
  Lemma amax_fin x l : exists v, amax (fin (x :: l)) = Ok (Fin v) /\ In v (x :: l) /\ forall y, In y (x :: l) -> (y <= v)%R.
  Proof.
    clear. unfold amax. cbn [map]. revert x. induction l as [|y l IH]; intro x; [exists x; split; [reflexivity|]; split; [left; reflexivity|]; intros z [->|[]]; lra|]. cbn [map fold_left].
    replace (fmaximum (Fin x) (Fin y)) with (@Fin R (Rmax x y)).
    2:{ unfold fmaximum. cbn. unfold Rltb. destruct (Rlt_dec x y); [rewrite Rmax_right by lra|rewrite Rmax_left by lra]; reflexivity. }
    destruct (IH (Rmax x y)) as (v & E & Hin & HL). exists v. split; [exact E|]. split.
    - destruct Hin as [<-|Hin]; [|right; right; exact Hin]. unfold Rmax. destruct (Rle_dec x y); [right; left|left]; reflexivity.
    - pose proof (HL (Rmax x y) (or_introl eq_refl)) as H0. pose proof (Rmax_l x y). pose proof (Rmax_r x y). intros z [<-|[<-|Hz]]; [lra|lra|]. apply HL. right. exact Hz.
  Qed.

  (** What is reported for one subsequence, from the distances of its best matches so far *)
  Definition report (kb : option Z) (col : list (num R)) : res (num R) := match kb with None => amax col | Some k => pyget (fsort col) (k - 1) end.
  Definition true_radius (kb : option nat) (s i : nat) (v : R) : Prop := match kb with None => radius m C s i v | Some k => radius_k m C k s i v end.
  Definition kb_ok (kb : option nat) : Prop := match kb with None => True | Some k => 1 <= k /\ k < n end.

  Lemma pyget_nat {T} (l : list T) k v : 1 <= k -> nth_error l (k - 1) = Some v -> pyget l (Z.of_nat k - 1) = Ok v.
  Proof.
    clear. intros Hk E. unfold pyget, getitem. assert (k - 1 < length l) by (apply nth_error_Some; congruence). replace (Z.of_nat k - 1 <? 0)%Z with false by (symmetry; apply Z.ltb_ge; lia).
    replace (Z.of_nat k - 1 <? - Z.of_nat (length l))%Z with false by (symmetry; apply Z.ltb_ge; lia). replace (Z.of_nat (length l) <=? Z.of_nat k - 1)%Z with false by (symmetry; apply Z.leb_gt; lia). cbn [orb].
    replace (Z.to_nat (Z.of_nat k - 1)) with (k - 1) by lia. rewrite E. reflexivity.
  Qed.

  Lemma report_two kb s i col1 col2 : 2 <= n -> s < n -> kb_ok kb -> Forall2 fle (fin (all_radii m C s i)) col2 -> Forall2 fle col2 col1 ->
    exists v1 v2 v, report (option_map Z.of_nat kb) col1 = Ok v1 /\ report (option_map Z.of_nat kb) col2 = Ok v2 /\ true_radius kb s i v /\ fleb v2 v1 = true /\ fleb (Fin v) v2 = true /\
      (col2 = fin (all_radii m C s i) -> v2 = Fin v).
  Proof.
    intros Hn Hs Hkb H2 H1. assert (La : length (all_radii m C s i) = n - 1) by (unfold all_radii; rewrite map_length, others_eq by exact Hs; rewrite app_length, !seq_length; lia).
    pose proof (forall2_length H2) as L2. pose proof (forall2_length H1) as L1. rewrite map_length, La in L2.
    destruct kb as [k|]; cbn [option_map report true_radius kb_ok] in *.
    - destruct Hkb as [K1 K2]. destruct (@kth_mono _ _ (k - 1) H2) as (v & v2 & E & E2 & HL); [rewrite map_length; lia|]. destruct (@kth_mono _ _ (k - 1) H1) as (v2' & v1 & E2' & E1 & HL1); [lia|]. assert (v2' = v2) by congruence. subst v2'.
      assert (E' := E). rewrite fsort_fin in E'. rewrite nth_error_map in E'. destruct (nth_error (rsort (all_radii m C s i)) (k - 1)) as [w|] eqn:Ew; [|discriminate]. cbn [option_map] in E'. injection E' as <-. exists v1, v2, w. split; [apply pyget_nat; assumption|]. split; [apply pyget_nat; assumption|]. split; [apply radius_k_iff; auto|]. split; [exact HL1|]. split; [exact HL|].
      intros ->. congruence.
    - assert (Hne : fin (all_radii m C s i) <> []) by (destruct (all_radii m C s i); cbn in *; [lia|discriminate]). destruct (amax_mono H2 Hne) as (v & v2 & E & E2 & HL). destruct (@amax_mono _ _ H1) as (v2' & v1 & E2' & E1 & HL1); [destruct col2; cbn in *; [lia|discriminate]|]. assert (v2' = v2) by congruence. subst v2'.
      destruct (all_radii m C s i) as [|x l] eqn:El; [cbn in La; lia|]. destruct (amax_fin x l) as (w & Ew & Hin & Hmax). rewrite E in Ew. injection Ew as ->. exists v1, v2, w. split; [exact E1|]. split; [exact E2|]. split; [|split; [exact HL1|split; [exact HL|intros ->; congruence]]].
      exists (fun t => dm s t i). split; [intros t Ht _; apply dm_best; assumption|]. rewrite <- El in *. unfold all_radii in *. assert (HO : forall t, In t (others C s) <-> t < n /\ t <> s).
      { intro t. unfold others. rewrite filter_In, in_seq, negb_true_iff, Nat.eqb_neq. lia. }
      split.
      + apply in_map_iff in Hin. destruct Hin as (t & Et & Ht%HO). exists t. auto.
      + intros t Ht%HO. apply Hmax. apply in_map_iff. eauto.
  Qed.

  Lemma radii_row kb mps k : kb_ok kb -> length mps = n - 1 -> 2 <= n -> hd_error mps <> None -> length (hd [] mps) = k ->
    match option_map Z.of_nat kb with
    | None => if length mps =? 0 then Err ValueError else mapM amax (axis0 mps)
    | Some k => do _ <- pyget mps (k - 1); mapM (fun col => pyget (fsort col) (k - 1)) (axis0 mps)
    end = mapM (fun i => report (option_map Z.of_nat kb) (map (fun row => nth i row NaN) mps)) (seq 0 k).
  Proof.
    clear. intros Hkb L Hn _ Hk. unfold axis0. rewrite Hk. destruct kb as [k'|]; cbn [option_map report kb_ok] in *.
    - destruct Hkb as [K1 K2]. destruct (nth_error mps (k' - 1)) as [x|] eqn:E; [|apply nth_error_None in E; lia]. rewrite (pyget_nat mps K1 E). cbn [bind]. apply mapM_map.
    - destruct (Nat.eqb_spec (length mps) 0); [lia|]. apply mapM_map.
  Qed.

  Lemma radii_two kb c1 c2 : 2 <= n -> kb_ok kb -> Forall (fun c : ocall => sensible (snd c)) (c1 ++ c2) ->
    exists o0 o1 o2 R1 R2, ost_new mem memb shuffle (map (map (@Fin R)) C) (Z.of_nat m) = Ok o0 /\
      foldM (fun o (c : ocall) => ost_calculate set_order (fst c) o (snd c)) c1 o0 = Ok o1 /\
      foldM (fun o (c : ocall) => ost_calculate set_order (fst c) o (snd c)) c2 o1 = Ok o2 /\
      ost_radii o1 (option_map Z.of_nat kb) = Ok R1 /\ ost_radii o2 (option_map Z.of_nat kb) = Ok R2 /\ length R1 = n /\ length R2 = n /\
      forall s, s < n -> exists r1 r2, nth_error R1 s = Some r1 /\ nth_error R2 s = Some r2 /\ length r1 = cols s /\ length r2 = cols s /\
        forall i, i < cols s -> exists v1 v2 v, nth_error r1 i = Some v1 /\ nth_error r2 i = Some v2 /\ true_radius kb s i v /\ fleb v2 v1 = true /\ fleb (Fin v) v2 = true /\
          ((exists calls', c1 ++ c2 = calls' ++ [full]) -> v2 = Fin v).
  Proof.
    intros Hn Hkb Hc. destruct (ost_two c1 c2 Hc) as (o0 & o1 & o2 & E0 & E1 & E2 & EM & LM & HS).
    set (zk := option_map Z.of_nat kb).
    assert (RW : forall s, s < n -> exists refs r1 r2, nth_error (os_mps o1) s = Some refs /\
      (do mps <- mapM (read_mp (os_calcs o1)) refs; match zk with None => if length mps =? 0 then Err ValueError else mapM amax (axis0 mps) | Some k => do _ <- pyget mps (k - 1); mapM (fun col => pyget (fsort col) (k - 1)) (axis0 mps) end) = Ok r1 /\
      (do mps <- mapM (read_mp (os_calcs o2)) refs; match zk with None => if length mps =? 0 then Err ValueError else mapM amax (axis0 mps) | Some k => do _ <- pyget mps (k - 1); mapM (fun col => pyget (fsort col) (k - 1)) (axis0 mps) end) = Ok r2 /\
      length r1 = cols s /\ length r2 = cols s /\
      forall i, i < cols s -> exists v1 v2 v, nth_error r1 i = Some v1 /\ nth_error r2 i = Some v2 /\ true_radius kb s i v /\ fleb v2 v1 = true /\ fleb (Fin v) v2 = true /\
          ((exists calls', c1 ++ c2 = calls' ++ [full]) -> v2 = Fin v)).
    { intros s Hs. destruct (HS s Hs) as (refs & L & Er & EL & M1 & M2 & HF). exists refs. rewrite M1, M2. cbn [bind].
      assert (LL : length L = n - 1) by (rewrite <- (map_length fst), EL, others_eq by exact Hs; rewrite app_length, !seq_length; lia).
      assert (Hhd : length (hd [] (map (fun x => fst (snd x)) L)) = cols s /\ length (hd [] (map (fun x => snd (snd x)) L)) = cols s).
      { destruct HF as [|x L [X1 [X2 _]] _]; [cbn in LL; lia|]. cbn [map hd]. auto. }
      assert (Hne : forall (g : nat * (list (num R) * list (num R)) -> list (num R)), hd_error (map g L) <> None) by (intro g; destruct L; [cbn in LL; lia|discriminate]).
      unfold zk. rewrite (@radii_row kb _ (cols s) Hkb) by (rewrite ?map_length; auto; apply Hhd). rewrite (@radii_row kb _ (cols s) Hkb) by (rewrite ?map_length; auto; apply Hhd).
      assert (CL : forall i, i < cols s -> exists v1 v2 v, report zk (map (fun row => nth i row NaN) (map (fun x => fst (snd x)) L)) = Ok v1 /\ report zk (map (fun row => nth i row NaN) (map (fun x => snd (snd x)) L)) = Ok v2 /\
        true_radius kb s i v /\ fleb v2 v1 = true /\ fleb (Fin v) v2 = true /\ ((exists calls', c1 ++ c2 = calls' ++ [full]) -> v2 = Fin v)).
      { intros i Hi. rewrite !map_map.
        assert (NT : forall (l : list (num R)) v, nth_error l i = Some v -> nth i l NaN = v) by (intros l v Ev; apply nth_error_nth; exact Ev).
        assert (F2 : Forall2 fle (fin (all_radii m C s i)) (map (fun x => nth i (snd (snd x)) NaN) L)).
        { unfold all_radii. rewrite <- EL, !map_map. clear - HF Hi NT. induction HF as [|x L [X1 [X2 X3]] _ IH]; [constructor|]. cbn [map]. constructor; [|exact IH]. destruct (X3 i Hi) as (v1 & v2 & Y1 & Y2 & Y3 & Y4 & _). rewrite (NT _ _ Y2). exact Y4. }
        assert (F1 : Forall2 fle (map (fun x => nth i (snd (snd x)) NaN) L) (map (fun x => nth i (fst (snd x)) NaN) L)).
        { clear - HF Hi NT. induction HF as [|x L [X1 [X2 X3]] _ IH]; [constructor|]. cbn [map]. constructor; [|exact IH]. destruct (X3 i Hi) as (v1 & v2 & Y1 & Y2 & Y3 & Y4 & _). rewrite (NT _ _ Y2), (NT _ _ Y1). exact Y3. }
        destruct (@report_two kb s i _ _ Hn Hs Hkb F2 F1) as (v1 & v2 & v & V1 & V2 & V3 & V4 & V5 & V6). exists v1, v2, v. do 5 (split; [assumption|]). intro HX. apply V6.
        unfold all_radii. rewrite <- EL, !map_map. clear - HF Hi NT HX. induction HF as [|x L [X1 [X2 X3]] _ IH]; [reflexivity|]. cbn [map]. f_equal; [|exact IH]. destruct (X3 i Hi) as (v1 & v2 & Y1 & Y2 & Y3 & Y4 & Y5). rewrite (NT _ _ Y2). apply Y5, HX. }
      destruct (@mapM_exists _ _ (fun i => report zk (map (fun row => nth i row NaN) (map (fun x => fst (snd x)) L))) (seq 0 (cols s))) as (r1 & R1 & G1); [intros i Hi%in_seq; destruct (CL i ltac:(lia)) as (v1 & _ & _ & X & _); eauto|].
      destruct (@mapM_exists _ _ (fun i => report zk (map (fun row => nth i row NaN) (map (fun x => snd (snd x)) L))) (seq 0 (cols s))) as (r2 & R2 & G2); [intros i Hi%in_seq; destruct (CL i ltac:(lia)) as (_ & v2 & _ & _ & X & _); eauto|].
      exists r1, r2. split; [exact Er|]. split; [exact R1|]. split; [exact R2|]. pose proof (forall2_length G1) as Q1. pose proof (forall2_length G2) as Q2. rewrite seq_length in Q1, Q2. split; [lia|]. split; [lia|].
      intros i Hi. destruct (CL i Hi) as (v1 & v2 & v & V1 & V2 & V3). exists v1, v2, v. assert (Es : nth_error (seq 0 (cols s)) i = Some i) by (rewrite nth_error_seq, (proj2 (Nat.ltb_lt _ _) Hi); reflexivity).
      destruct (forall2_nth _ G1 Es) as (u1 & U1 & U1'). destruct (forall2_nth _ G2 Es) as (u2 & U2 & U2'). cbn beta in *. split; [congruence|]. split; [congruence|exact V3]. }
    assert (IN : forall refs, In refs (os_mps o1) -> exists s, s < n /\ nth_error (os_mps o1) s = Some refs) by (intros refs Hin; apply In_nth_error in Hin; destruct Hin as (s & Es); exists s; split; [rewrite <- LM; apply nth_error_Some; congruence|exact Es]).
    pose (fo := fun (o : @ostinato R) refs => do mps <- mapM (read_mp (os_calcs o)) refs; match zk with None => if length mps =? 0 then Err ValueError else mapM amax (axis0 mps) | Some k => do _ <- pyget mps (k - 1); mapM (fun col => pyget (fsort col) (k - 1)) (axis0 mps) end).
    assert (RO : forall o, ost_radii o zk = mapM (fo o) (os_mps o)) by reflexivity. set (f1 := fo o1) in *. set (f2 := fo o2) in *.
    destruct (@mapM_exists _ _ f1 (os_mps o1)) as (R1 & H1 & G1); [intros refs (s & Hs & Es)%IN; destruct (RW s Hs) as (refs' & r1 & r2 & Er & X1 & X2 & _); assert (refs' = refs) by congruence; subst refs'; exists r1; exact X1|].
    destruct (@mapM_exists _ _ f2 (os_mps o1)) as (R2 & H2 & G2); [intros refs (s & Hs & Es)%IN; destruct (RW s Hs) as (refs' & r1 & r2 & Er & X1 & X2 & _); assert (refs' = refs) by congruence; subst refs'; exists r2; exact X2|].
    exists o0, o1, o2, R1, R2. do 3 (split; [assumption|]). split; [rewrite RO; exact H1|]. split; [rewrite RO, EM; exact H2|]. pose proof (forall2_length G1) as Q1. pose proof (forall2_length G2) as Q2. split; [lia|]. split; [lia|]. intros s Hs.
    destruct (RW s Hs) as (refs & r1 & r2 & Er & X1 & X2 & X3). exists r1, r2. destruct (forall2_nth _ G1 Er) as (u1 & U1 & U1'). destruct (forall2_nth _ G2 Er) as (u2 & U2 & U2'). unfold f1, fo in U1'. unfold f2, fo in U2'. split; [congruence|]. split; [congruence|exact X3].
  Qed.
End Anytime.

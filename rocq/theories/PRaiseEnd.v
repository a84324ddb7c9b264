(** * PRaiseEnd: matrix profiles calculated in spite of exceptions *)
From Coq Require Import QArith Permutation.
From Verif Require Import Np NpFacts Mat MUtil SLog PLog PMulti MProfile PProfile PShift MCalc SCalc PCalc PCalcRun PCalcEnd SMixed PMixed SEnd PEnd MRaise SRaise PRaise.
Set Implicit Arguments.
Open Scope nat_scope.

Section Profile.
  Context {A : Type} {NA : NumOps A} {OL : OrdLaws A}.
  Notation num := (Np.num A).
  Variables (self : bool) (h w : nat) (b : Z) (D : nat -> nat -> num).
  Hypothesis Hnan : forall r c, r < h -> c < w -> isnan (D r c) = false.
  Hypothesis Hself : self = true -> h = w /\ forall r c, r < h -> c < h -> D r c = D c r.
  Hypothesis Hh : 0 < h.
  Notation evs_of t := (mixed_calls (fun _ => Dc h D) (fun _ => Dd h w D) self b t [0]).

  (** The events [evs] are some of those of [t0], possibly more than once, and all of those of [t] *)
  Lemma right_profile (evs : list (event num)) t0 t : fine self h w b t0 -> fine self h w b t -> incl evs (evs_of t0) -> incl (evs_of t) evs ->
    (forall r j, r < h -> j < w -> far b (Z.of_nat r, Z.of_nat j) = true -> given self b t r j) ->
    exists s, mplr_run (mplr_init h w) evs = Ok s /\ profile_ok D w (outside b h) (mplr_mp s, mplr_idx s).
  Proof.
    intros F0 F I0 I1 HG. destruct (evs_ok D Hnan Hself Hh F0) as (H1 & H2 & H3 & H4). destruct (evs_ok D Hnan Hself Hh F) as (H1' & _).
    assert (K : forall P : event num -> Prop, Forall P (evs_of t0) -> Forall P evs) by (intros P HP; apply Forall_forall; intros e He; rewrite Forall_forall in HP; apply HP, I0, He).
    pose proof (K _ H1) as K1.
    assert (J0 : incl (log evs) (log (evs_of t0))). { intros x Hx. rewrite (log_no_shift K1), in_flat_map in Hx. destruct Hx as (e & He & Hx). rewrite (log_no_shift H1), in_flat_map. eauto. }
    assert (J1 : incl (log (evs_of t)) (log evs)). { intros x Hx. rewrite (log_no_shift H1'), in_flat_map in Hx. destruct Hx as (e & He & Hx). rewrite (log_no_shift K1), in_flat_map. eauto. }
    assert (Hag : agrees (Dm b D) (log evs)) by (intros r c v H; exact (evs_agree D Hnan Hself Hh F0 _ _ _ (J0 _ H))).
    destruct (@C35_lemma A NA OL h w (Dm b D) evs K1 (K _ H2) (K _ H3) (K _ H4) Hag) as (s & E & L1 & L2 & HS).
    exists s. split; [exact E|]. split; [exact L1|]. split; [exact L2|]. cbn [fst snd]. intros j Hj. destruct (HS j Hj) as (vl & il & vr & ir & v & i & _ & _ & _ & _ & Ev & Ei & _ & _ & _ & _ & _ & HB).
    exists v, i. split; [exact Ev|]. split; [exact Ei|].
    assert (Hsel : forall r x, In (r, x) (sel all_rows (Z.of_nat j) (log evs)) <-> In (r, Z.of_nat j, x) (log evs)).
    { intros r x. unfold sel. rewrite in_map_iff. split.
      - intros ([[r0 c0] v0] & E0 & Hf). injection E0 as -> ->. apply filter_In in Hf. destruct Hf as [Hf Hc]. apply andb_true_iff in Hc. destruct Hc as [Hc _]. apply Z.eqb_eq in Hc. subst c0. exact Hf.
      - intro Hin. exists (r, Z.of_nat j, x). split; [reflexivity|]. apply filter_In. split; [exact Hin|]. rewrite Z.eqb_refl. reflexivity. }
    assert (Hrow : forall r, outside b h j r -> In (Z.of_nat r, D r j) (sel all_rows (Z.of_nat j) (log evs))).
    { intros r [Hr Hf]. apply Hsel, J1, (log_in D Hnan Hself Hh _ _ _ F). split; [lia|]. split.
      - unfold Dm, Dz. destruct (Z.leb_spec (Z.abs (Z.of_nat r - Z.of_nat j)) b); [lia|]. rewrite !Nat2Z.id. reflexivity.
      - rewrite Nat2Z.id. apply HG; [exact Hr|exact Hj|]. unfold far. cbn [fst snd]. apply Z.ltb_lt, Hf. }
    assert (Hcell : forall r x, In (r, x) (sel all_rows (Z.of_nat j) (log evs)) -> x = PInf \/ exists r', r = Z.of_nat r' /\ outside b h j r' /\ x = D r' j).
    { intros r x Hin. apply Hsel, J0, (log_in D Hnan Hself Hh _ _ _ F0) in Hin. destruct Hin as ((Hr & Hc) & -> & Hg). unfold Dm. destruct (Z.leb_spec (Z.abs (r - Z.of_nat j)) b); [left; reflexivity|].
      right. exists (Z.to_nat r). split; [lia|]. split; [split; lia|]. unfold Dz. rewrite Nat2Z.id. reflexivity. }
    destruct HB as [[-> HB]|(Hlt & Hin & HB)].
    - left. split; [reflexivity|]. intros r Hr. eapply HB, Hrow, Hr.
    - right. split; [exact Hlt|]. destruct (Hcell _ _ Hin) as [->|(r & -> & Hr & ->)]; [discriminate|]. exists r. split; [exact Hr|]. do 2 (split; [reflexivity|]).
      intros r' Hr'. eapply HB, Hrow, Hr'.
  Qed.
End Profile.

Lemma size_all h w order k : 0 < h -> 0 < w -> (forall d, In d order -> on_matrix h w d) -> k <= length order -> (size h w order <= size h w (firstn k order))%Z -> k = length order.
Proof.
  intros Hh Hw Ho Hk Hs. destruct (Nat.eq_dec k (length order)) as [|Hn]; [assumption|exfalso]. rewrite <- (firstn_skipn k order) in Hs at 1. rewrite size_app in Hs.
  destruct (skipn k order) as [|d l] eqn:E; [apply (f_equal (@length _)) in E; rewrite skipn_length in E; cbn in E; lia|].
  assert (Hd : forall d', In d' (d :: l) -> on_matrix h w d') by (intros d' Hd'; apply Ho; rewrite <- (firstn_skipn k order), E; apply in_or_app; right; exact Hd').
  pose proof (@dlen_pos h w d (Hd d (or_introl eq_refl)) Hh Hw). pose proof (@size_pos h w Hh Hw l ltac:(intros d' Hd'; apply Hd; right; exact Hd')). unfold size in *. cbn [map fold_right] in Hs. lia.
Qed.

Section Any.
  Context {A : Type}.
  Notation num := (Np.num A).
  Variables (X G C : Type).
  Variable g_col : G -> nat -> G * res (list num).
  Variable g_diag : G -> Z -> G * res (list num).
  Variable c_step : C -> event num -> C * option exn.
  Variable set_order : list nat -> list nat.
  Hypothesis HSO : orders_sets set_order.
  Variables (shuffle : list Z -> list Z) (m : Z) (series : list (list X)) (query : option (list (list X))) (buffer : option Z) (h w : nat) (a0 : any X G C).
  Variables (gens : list (G * nat)) (cs : list (C * list nat)) (I : nat -> G -> Prop) (Fc : nat -> nat -> list num) (Fd : nat -> Z -> list num).
  Hypothesis HB : built shuffle m series query buffer h w a0.
  Hypothesis Hids : ids_ok gens cs.
  Hypothesis Hgens : gens_ok I gens.
  Hypothesis HGc : may_give g_col I Fc (fun c => c < w) (fun _ => h).
  Hypothesis HGd : may_give g_diag I Fd (on_matrix h w) (fun d => Z.to_nat (dlen h w d)).
  Notation ac := (with_parts a0 gens cs).

  Lemma built_buffer : ca_tmb (an_calc a0) = buffer_used query m buffer.
  Proof.
    destruct HB as (HS & E & Hh & Hw & Ew & Eh). destruct query as [q|].
    - destruct (@any_new_join X G C shuffle m series q buffer h w a0 HS E Ew Eh) as [[] _]. assumption.
    - destruct (@any_new_self X G C shuffle m series buffer w a0 HS E Ew) as (_ & [] & _). assumption.
  Qed.

  Lemma start_inv dflt : inv c_step I Fc Fd h w ac dflt ac.
  Proof.
    destruct (built_fresh gens cs HB) as (b & Hf & _ & _). destruct Hf. unfold inv, cinv. rewrite fr_next, fr_done, fr_last. split; [|repeat split; try reflexivity; cbn; lia].
    split; [unfold same_conf; repeat split; reflexivity|]. split; [exact Hgens|]. split; [reflexivity|]. split; [lia|].
    generalize (ca_cons (an_calc ac)). intro l. induction l as [|c l IH]; constructor; [|exact IH]. split; [reflexivity|]. exists []. split; [reflexivity|]. split; [constructor|]. split; [intros d []|]. intros _ j Hj. lia.
  Qed.

  Lemma persist_start (dflt : Prop) calls : (dflt -> Forall from_last calls) -> inv c_step I Fc Fd h w ac dflt (persist g_col g_diag c_step set_order calls ac).
  Proof.
    intro HD. destruct (built_fresh gens cs HB) as (b & Hf & _ & _). destruct Hf. eapply persist_inv; try eassumption; [lia|]. apply start_inv.
  Qed.

  Lemma persist_told calls : let a := persist g_col g_diag c_step set_order calls ac in
    an_order a = an_order a0 /\ an_next a <= length (an_order a0) /\ an_done a = size h w (firstn (an_next a) (an_order a0)) /\
    Forall2 (fun c c' => snd c' = snd c /\ exists evs, fst c' = after c_step evs (fst c) /\
      Forall (right_call Fc Fd (is_self query) (ca_tmb (an_calc a0)) w (an_order a0) (snd c)) evs /\
      (forall d, In d (firstn (an_next a) (an_order a0)) -> in_full c_step (diagonal_calls Fd (is_self query) [d] (snd c)) evs (fst c)) /\
      (Forall from_last calls -> forall j, (Z.of_nat j <= ca_last (an_calc a))%Z -> in_full c_step (column_calls Fc (ca_tmb (an_calc a0)) j 1 (snd c)) evs (fst c)))
      cs (ca_cons (an_calc a)).
  Proof.
    destruct (@persist_start (Forall from_last calls) calls (fun H => H)) as ((_ & _ & _ & _ & HT) & H1 & _ & H3 & H4). intro a. fold a in HT, H1, H3, H4. split; [exact H1|]. split; [exact H3|]. split; [exact H4|].
    assert (Es : ca_self (an_calc ac) = is_self query) by (destruct (built_fresh gens cs HB) as (b & [] & _); assumption). unfold told in HT. rewrite Es in HT. exact HT.
  Qed.

  Lemma persist_finish calls a' : calculate_diagonals_x g_diag c_step set_order never (persist g_col g_diag c_step set_order calls ac) (RFloat (Fin 1%Q)) = (a', None) -> an_next a' = length (an_order a0).
  Proof.
    intro E. destruct (built_fresh gens cs HB) as (b & Hf & _ & _). destruct HB as (_ & _ & Hh & Hw & _). pose proof (@persist_start False calls ltac:(tauto)) as HI. destruct Hf.
    apply (@any_diagonals_x_ok A X G C g_diag c_step set_order HSO I Fc Fd h w HGd ac False) in E; auto; try lia. destruct E as ((_ & H1 & _ & H3 & H4) & E). destruct (E eq_refl ltac:(reflexivity)) as (v & Ev & Hv).
    eapply size_all; [exact Hh|exact Hw|exact fr_order|exact H3|]. rewrite H4 in Hv. assert (v = size h w (an_order ac)); [|subst v; exact Hv].
    rewrite fr_total in Ev. assert (0 <= size h w (an_order ac))%Z by (apply size_pos; [exact Hh|exact Hw|exact fr_order]).
    apply resolves_ok in Ev; [|assumption]. destruct Ev as (_ & _ & k & K1 & K2 & ->). rewrite Qmult_1_l, <- Zle_Qle in K1. lia.
  Qed.
End Any.

Section MP.
  Context {A : Type} {NA : NumOps A} {OL : OrdLaws A}.
  Notation num := (Np.num A).
  Variables (X G C : Type).
  Variable g_col : G -> nat -> G * res (list num).
  Variable g_diag : G -> Z -> G * res (list num).
  Variable c_step : C -> event num -> C * option exn.
  Variable set_order : list nat -> list nat.

  Lemma after_mplr (inj : @mplr A -> C) : (forall s e s', mplr_step s e = Ok s' -> c_step (inj s) e = (inj s', None)) ->
    forall evs s s', mplr_run s evs = Ok s' -> after c_step evs (inj s) = inj s'.
  Proof.
    intro H. unfold mplr_run. induction evs as [|e evs IH]; intros s s' E; cbn [foldM] in E; [injection E as <-; reflexivity|].
    destruct (mplr_step s e) as [s1|] eqn:Es; [|discriminate]. cbn [bind] in E. unfold after. cbn [fold_left]. rewrite (H _ _ _ Es). apply IH, E.
  Qed.

  Lemma in_full_incl (block evs : list (event num)) c : in_full c_step block evs c -> incl block evs.
  Proof. intros (pre & post & -> & _) x Hx. apply in_or_app. right. apply in_or_app. left. exact Hx. Qed.

  Lemma persist_profile shuffle m (series : list (list X)) query buffer h w (a0 : any X G C) gens cs I Fc Fd calls (inj : @mplr A -> C) k id (D : nat -> nat -> num) :
    orders_sets set_order -> built shuffle m series query buffer h w a0 -> ids_ok gens cs -> gens_ok I gens ->
    may_give g_col I Fc (fun c => c < w) (fun _ => h) -> may_give g_diag I Fd (on_matrix h w) (fun d => Z.to_nat (dlen h w d)) ->
    (forall s e s', mplr_step s e = Ok s' -> c_step (inj s) e = (inj s', None)) -> nth_error cs k = Some (inj (mplr_init h w), [id]) ->
    (forall j, j < w -> Fc id j = Dc h D j) -> (forall d, on_matrix h w d -> Fd id d = Dd h w D d) ->
    (forall r c, r < h -> c < w -> isnan (D r c) = false) -> (query = None -> forall r c, r < h -> c < h -> D r c = D c r) ->
    let a := persist g_col g_diag c_step set_order calls (with_parts a0 gens cs) in
    an_next a = length (an_order a0) \/ (Forall from_last calls /\ ca_last (an_calc a) = (Z.of_nat w - 1)%Z) ->
    exists s, nth_error (ca_cons (an_calc a)) k = Some (inj s, [id]) /\ profile_ok D w (outside (buffer_used query m buffer) h) (mplr_mp s, mplr_idx s).
  Proof.
    intros HSO HB Hids Hgens HGc HGd Hinj Hk HFc HFd Hnan Hsym a Hdone.
    destruct (@persist_told A X G C g_col g_diag c_step set_order HSO shuffle m series query buffer h w a0 gens cs I Fc Fd HB Hids Hgens HGc HGd calls) as (H1 & H3 & H4 & HT). fold a in H1, H3, H4, HT.
    assert (Hget : exists c', nth_error (ca_cons (an_calc a)) k = Some c' /\ snd c' = [id] /\ exists evs, fst c' = after c_step evs (inj (mplr_init h w)) /\
      Forall (right_call Fc Fd (is_self query) (ca_tmb (an_calc a0)) w (an_order a0) [id]) evs /\
      (forall d, In d (firstn (an_next a) (an_order a0)) -> in_full c_step (diagonal_calls Fd (is_self query) [d] [id]) evs (inj (mplr_init h w))) /\
      (Forall from_last calls -> forall j, (Z.of_nat j <= ca_last (an_calc a))%Z -> in_full c_step (column_calls Fc (ca_tmb (an_calc a0)) j 1 [id]) evs (inj (mplr_init h w)))).
    { clearbody a. clear - HT Hk. revert k Hk. induction HT as [|x y l l' Hx _ IH]; intros k Hk; [destruct k; discriminate|]. destruct k as [|k]; [|exact (IH k Hk)]. injection Hk as ->. exists y. split; [reflexivity|]. exact Hx. }
    destruct Hget as ([c' ids'] & Hc' & Eids & evs & Ec' & HR & HD & HC). cbn [fst snd] in Eids, Ec'. subst ids'. rewrite (built_buffer HB) in *. set (b := buffer_used query m buffer) in *. set (self := is_self query) in *.
    destruct (built_fresh gens cs HB) as (b' & Hf & HP & Hq). assert (Horder : forall d, In d (an_order a0) -> on_matrix h w d) by exact (fr_order Hf). pose proof HB as (_ & _ & Hh & Hw & _).
    assert (Hb : (-1 <= b)%Z). { pose proof (fr_tmb Hf) as E1. pose proof (fr_b Hf) as E2. cbn in E1. rewrite (built_buffer HB) in E1. fold b in E1. lia. }
    assert (Hself : self = true -> h = w /\ forall r c, r < h -> c < h -> D r c = D c r).
    { unfold self. destruct query as [q|]; [discriminate|]. intros _. split; [apply Hq; reflexivity|]. apply Hsym. reflexivity. }
    assert (Ford : forall d, In d (an_order a0) -> on_matrix h w d /\ (b < Z.abs d)%Z /\ (self = true -> 0 <= d)%Z).
    { intros d Hd. split; [apply Horder; exact Hd|]. apply (Permutation_in d HP) in Hd. unfold diagonals in Hd. apply in_pyrange in Hd. unfold b, self in *. destruct query; cbn [buffer_used is_self] in *; split; try lia; discriminate. }
    set (t0 := [PCols 0 w; PDiags (an_order a0)]).
    assert (F0 : fine self h w b t0) by (split; [intros c Hc; cbn in Hc; rewrite app_nil_r in Hc; apply in_seq in Hc; lia|intros d Hd; cbn in Hd; rewrite app_nil_r in Hd; apply Ford, Hd]).
    assert (Ecol : forall j, j < w -> column_calls Fc b j 1 [id] = [ECol j [hide b j (Dc h D j)]]) by (intros j Hj; unfold column_calls; cbn [seq map]; rewrite HFc by exact Hj; reflexivity).
    assert (Ediag : forall d, on_matrix h w d -> diagonal_calls Fd self [d] [id] = EDiag d [Dd h w D d] :: if self then [EDiag (- d) [Dd h w D d]] else []) by (intros d Hd; unfold diagonal_calls; cbn [flat_map map]; rewrite app_nil_r, HFd by exact Hd; reflexivity).
    assert (I0 : incl evs (mixed_calls (fun _ => Dc h D) (fun _ => Dd h w D) self b t0 [0])).
    { intros e He. rewrite Forall_forall in HR. apply evs_in. destruct (HR e He) as [(j & Hj & Hin)|(d & Hd & Hin)].
      - left. exists j. split; [cbn; rewrite app_nil_r; apply in_seq; lia|]. rewrite Ecol in Hin by exact Hj. destruct Hin as [<-|[]]. reflexivity.
      - right. exists d. split; [cbn; rewrite app_nil_r; exact Hd|]. rewrite Ediag in Hin by (apply Horder; exact Hd). destruct Hin as [<-|Hin]; [left; reflexivity|]. destruct self; [|destruct Hin]. destruct Hin as [<-|[]]. right. split; reflexivity. }
    assert (HE : exists t, fine self h w b t /\ incl (mixed_calls (fun _ => Dc h D) (fun _ => Dd h w D) self b t [0]) evs /\ complete query m buffer h w t).
    { destruct Hdone as [Hn|[HL Hlast]].
      - exists [PDiags (an_order a0)]. split; [split; [intros c []|intros d Hd; cbn in Hd; rewrite app_nil_r in Hd; apply Ford, Hd]|]. split.
        + intros e He. apply evs_in in He. destruct He as [(c & [] & _)|(d & Hd & He)]. cbn in Hd. rewrite app_nil_r in Hd. assert (Hd' : In d (firstn (an_next a) (an_order a0))) by (rewrite Hn, firstn_all; exact Hd).
          apply (in_full_incl (HD d Hd')). rewrite Ediag by (apply Horder; exact Hd). destruct He as [->|[-> ->]]; [left; reflexivity|right; left; reflexivity].
        + right. intros d Hd. cbn. rewrite app_nil_r. eapply Permutation_in; [symmetry; exact HP|exact Hd].
      - exists [PCols 0 w]. split; [split; [intros c Hc; cbn in Hc; rewrite app_nil_r in Hc; apply in_seq in Hc; lia|intros d []]|]. split.
        + intros e He. apply evs_in in He. destruct He as [(c & Hc & ->)|(d & [] & _)]. cbn in Hc. rewrite app_nil_r in Hc. apply in_seq in Hc. apply (in_full_incl (HC HL c ltac:(lia))). rewrite Ecol by lia. left. reflexivity.
        + left. intros j Hj. cbn. rewrite app_nil_r. apply in_seq. lia. }
    destruct HE as (t & F & I1 & Hcomp). destruct (@right_profile A NA OL self h w b D Hnan Hself Hh evs t0 t F0 F I0 I1) as (s & Er & Hs).
    { intros r j Hr Hj Hfar. apply complete_given with (h := h) (w := w); auto. intro Eq. apply Hq. exact Eq. }
    exists s. split; [|exact Hs]. rewrite Hc', Ec'. f_equal. f_equal. eapply after_mplr; eassumption.
  Qed.
End MP.

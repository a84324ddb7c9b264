(** * PEndMulti: MultidimensionalMatrixProfileLR consumers that are told parts of several distance matrices *)
From Coq Require Import QArith Permutation.
From Verif Require Import Np NpFacts Mat MUtil SLog PLog PSort PMulti MMulti SMulti PMultiRun PMultiRaise MCalc SCalc PCalc PCalcRun SMixed PMixed SEnd PEnd SEndAll SEndCons PEndCons.
Set Implicit Arguments.
Open Scope nat_scope.

Section Many.
  Context {A : Type} {NA : NumOps A} {OL : OrdLaws A} {AL : AvgLaws A}.
  Notation num := (Np.num A).
  Variables (self : bool) (h w : nat) (b : Z) (D : nat -> nat -> nat -> num) (ids : list nat).
  Hypothesis Hreal : forall id r c, In id ids -> r < h -> c < w -> real (D id r c).
  Hypothesis Hneg : forall id r c, In id ids -> r < h -> c < w -> fltb (D id r c) (Fin nzero) = false.
  Hypothesis Hself : self = true -> h = w /\ forall id r c, In id ids -> r < h -> c < h -> D id r c = D id c r.
  Hypothesis Hh : 0 < h.
  Hypothesis Hw : 0 < w.
  Hypothesis Hids : ids <> [].
  Notation evs t := (told D h w self b t ids).
  Notation fine := (fine self h w b).

  Lemma told_in t e : In e (evs t) <-> (exists c, In c (cols_in t) /\ e = ECol c (map (fun id => hide b c (column_of h (D id) c)) ids)) \/
    (exists d, In d (diags_in t) /\ (e = EDiag d (map (fun id => diagonal_of h w (D id) d) ids) \/ (self = true /\ e = EDiag (- d) (map (fun id => diagonal_of h w (D id) d) ids)))).
  Proof.
    clear. unfold told, mixed_calls, cols_in, diags_in. rewrite in_flat_map. split.
    - intros (p & Hp & He). destruct p as [c n|ds]; cbn [part_calls] in He.
      + left. unfold column_calls in He. apply in_map_iff in He. destruct He as (c' & <- & Hc). exists c'. split; [apply in_flat_map; exists (PCols c n); split; [exact Hp|exact Hc]|reflexivity].
      + right. unfold diagonal_calls in He. apply in_flat_map in He. destruct He as (d & Hd & [<-|He]).
        * exists d. split; [apply in_flat_map; exists (PDiags ds); split; [exact Hp|exact Hd]|left; reflexivity].
        * destruct self; [|destruct He]. destruct He as [<-|[]]. exists d. split; [apply in_flat_map; exists (PDiags ds); split; [exact Hp|exact Hd]|right; split; reflexivity].
    - intros [(c & Hc & ->)|(d & Hd & He)].
      + apply in_flat_map in Hc. destruct Hc as (p & Hp & Hc). exists p. split; [exact Hp|]. destruct p as [c0 n|ds]; [|destruct Hc]. cbn [part_calls]. unfold column_calls. apply in_map_iff. exists c. split; [reflexivity|exact Hc].
      + apply in_flat_map in Hd. destruct Hd as (p & Hp & Hd). exists p. split; [exact Hp|]. destruct p as [c0 n|ds]; [destruct Hd|]. cbn [part_calls]. unfold diagonal_calls. apply in_flat_map. exists d. split; [exact Hd|].
        destruct He as [->|[-> ->]]; [left; reflexivity|right; left; reflexivity].
  Qed.

  Lemma length_col id c : length (hide b c (column_of h (D id) c)) = h.
  Proof. clear. rewrite length_hide. apply length_Dc. Qed.
  Lemma length_diag id d : length (diagonal_of h w (D id) d) = Z.to_nat (dlen h w d).
  Proof. clear. unfold diagonal_of, diag_of. rewrite map_length, seq_length. reflexivity. Qed.
  Lemma in_col id c x : In x (hide b c (column_of h (D id) c)) -> exists r, r < h /\ x = masked b (D id) r c.
  Proof.
    clear. change (column_of h (D id) c) with (Dc h (D id) c). rewrite hide_masked. unfold column_of. intro H. apply in_map_iff in H. destruct H as (r & <- & Hr). apply in_seq in Hr. exists r. split; [lia|reflexivity].
  Qed.
  Lemma in_diagonal id d x : on_matrix h w d -> In x (diagonal_of h w (D id) d) -> exists r c, r < h /\ c < w /\ x = D id r c.
  Proof.
    clear. intros Hm Hx. unfold on_matrix in Hm. unfold diagonal_of, diag_of in Hx. apply in_map_iff in Hx. destruct Hx as (k & <- & Hk). apply in_seq in Hk. unfold dlen in Hk. eexists _, _. split; [|split; [|reflexivity]]; lia.
  Qed.
  Lemma masked_real id r c : In id ids -> r < h -> c < w -> real (masked b (D id) r c).
  Proof. intros. unfold masked. destruct (Z.leb _ _); [split; discriminate|auto]. Qed.

  Lemma told_fits t : fine t -> Forall (mfits (length ids) h w) (evs t).
  Proof.
    intros [Fc Fd]. apply Forall_forall. intros e He. apply told_in in He.
    assert (RD : forall d, on_matrix h w d -> rect (length ids) (Z.to_nat (dlen h w d)) (map (fun id => diagonal_of h w (D id) d) ids)).
    { intros d Hm. split; [apply map_length|]. intros row Hr. apply in_map_iff in Hr. destruct Hr as (id & <- & Hid). split; [apply length_diag|]. intros x Hx. apply in_diagonal in Hx; [|exact Hm]. destruct Hx as (r & c & Hr & Hc & ->). auto. }
    destruct He as [(c & Hc & ->)|(d & Hd & He)].
    - split; [auto|]. exists h. split; [|lia]. split; [apply map_length|]. intros row Hr. apply in_map_iff in Hr. destruct Hr as (id & <- & Hid). split; [apply length_col|]. intros x Hx. apply in_col in Hx. destruct Hx as (r & Hr & ->). apply masked_real; auto.
    - destruct (Fd d Hd) as (Hm & _ & Hs). pose proof Hm as Hm'. unfold on_matrix in Hm'. destruct He as [->|[Es ->]].
      + split; [lia|]. exists (Z.to_nat (dlen h w d)). split; [auto|]. unfold dlen. lia.
      + destruct (Hself Es) as [E _]. specialize (Hs Es). split; [lia|]. exists (Z.to_nat (dlen h w d)). split; [auto|]. unfold dlen. lia.
  Qed.
  Lemma told_nonneg t : fine t -> Forall nonneg (filter (fun e => match e with EDiag _ _ => true | _ => false end) (evs t)).
  Proof.
    intros [Fc Fd]. apply Forall_forall. intros e He. apply filter_In in He. destruct He as [He Hk]. apply told_in in He. destruct He as [(c & Hc & ->)|(d & Hd & He)]; [discriminate|].
    destruct (Fd d Hd) as (Hm & _). destruct He as [->|[_ ->]]; intros row x Hr Hx; apply in_map_iff in Hr; destruct Hr as (id & <- & Hid); (apply in_diagonal in Hx; [|exact Hm]; destruct Hx as (r & c & Hr & Hc & ->); auto).
  Qed.
  Lemma told_no_shift t : Forall no_shift (evs t).
  Proof. clear. apply Forall_forall. intros e He. apply told_in in He. destruct He as [(c & Hc & ->)|(d & Hd & [->|[_ ->]])]; exact I. Qed.
  Lemma short_sides (es : list (event num)) : Forall no_shift es -> (forall e, In e es -> match e with EDiag d vs => Z.to_nat (- d) + length (hd [] vs) <= w | _ => True end) -> md_diags_ok w 0 es.
  Proof.
    clear. induction es as [|e es IH]; intros HN HD; [exact I|]. cbn [md_diags_ok]. apply Forall_inv in HN as He. apply Forall_inv_tail in HN. split.
    - specialize (HD e ltac:(left; reflexivity)). destruct e; try exact I. split; [rewrite Z.add_0_r; reflexivity|exact HD].
    - destruct e; try contradiction; cbn [event_sshift event_qshift]; apply IH; auto; intros; apply HD; right; assumption.
  Qed.
  Lemma told_length d : length (hd [] (map (fun id => diagonal_of h w (D id) d) ids)) = Z.to_nat (dlen h w d).
  Proof. clear - Hids. destruct ids; [congruence|]; apply length_diag. Qed.
  Lemma told_sides t : fine t -> h <= w \/ (forall d, In d (diags_in t) -> (0 <= d)%Z) -> md_diags_ok w 0 (evs t).
  Proof.
    intros [Fc Fd] Hs. apply short_sides; [apply told_no_shift|]. intros e He. apply told_in in He. destruct He as [(c & Hc & ->)|(d & Hd & He)]; [exact I|].
    destruct (Fd d Hd) as (Hm & _ & Hs'). unfold on_matrix in Hm. destruct He as [->|[Es ->]]; rewrite told_length; unfold dlen.
    - destruct Hs as [Hs|Hs]; [lia|]. specialize (Hs d Hd). lia.
    - destruct (Hself Es) as [E _]. specialize (Hs' Es). lia.
  Qed.
  (** A diagonal below the main one, of a matrix with more rows than columns, is rejected. *)
  Lemma told_rejected memn memz memd (sf : Q) argsort t d : (1 <= sf)%Q -> (sf <= 2)%Q -> argsorts argsort -> fine t -> w < h -> In d (diags_in t) -> (d < 0)%Z ->
    exists s0, md_init memn memz memd sf (length ids) h w = Ok s0 /\ foldM (md_step argsort) (evs t) s0 = Err IndexError.
  Proof.
    intros S1 S2 Ha F Hlong Hd Hdn. assert (HD : 0 < length ids) by (destruct ids; [congruence|cbn; lia]).
    destruct (@md_init_ok A NA (length ids) h w HD Hw memn memz memd sf S1 S2) as (s0 & E0 & I0). exists s0. split; [exact E0|].
    pose proof (told_no_shift t) as HN. pose proof (told_fits F) as HF. pose proof (told_nonneg F) as HP.
    assert (Ex : exists es1 d' es2, evs t = es1 ++ EDiag d' (map (fun id => diagonal_of h w (D id) d') ids) :: es2 /\ In d' (diags_in t) /\ (d' < 0)%Z /\ forall e, In e es1 -> match e with EDiag d _ => (0 <= d)%Z | _ => True end).
    { set (bad := fun e : event num => match e with EDiag d _ => (d <? 0)%Z | _ => false end).
      assert (Hin : exists e, In e (evs t) /\ bad e = true).
      { eexists. split; [apply told_in; right; exists d; split; [exact Hd|left; reflexivity]|]. apply Z.ltb_lt. exact Hdn. }
      assert (Sp : exists es1 e es2, evs t = es1 ++ e :: es2 /\ bad e = true /\ forall e, In e es1 -> bad e = false).
      { revert Hin. generalize (evs t). clear. induction l as [|x l IH]; intros (e & He & Hb); [destruct He|]. destruct (bad x) eqn:Ex.
        - exists [], x, l. split; [reflexivity|]. split; [exact Ex|intros ? []].
        - destruct IH as (es1 & e' & es2 & -> & H1 & H2); [destruct He as [<-|He]; [congruence|eauto]|]. exists (x :: es1), e', es2. split; [reflexivity|]. split; [exact H1|]. intros y [<-|Hy]; auto. }
      destruct Sp as (es1 & e & es2 & Ee & Hb & Hpre). assert (He : In e (evs t)) by (rewrite Ee; apply in_app_iff; right; left; reflexivity). apply told_in in He.
      destruct He as [(c & Hc & ->)|(d' & Hd' & [->|[Es _]])]; [discriminate| |destruct (Hself Es); lia]. exists es1, d', es2. split; [exact Ee|]. split; [exact Hd'|]. apply Z.ltb_lt in Hb. split; [exact Hb|].
      intros x Hx. specialize (Hpre x Hx). destruct x; try exact I. apply Z.ltb_ge in Hpre. exact Hpre. }
    destruct Ex as (es1 & d' & es2 & Ee & Hd' & Hdn' & Hpre). destruct F as [Fc Fd]. destruct (Fd d' Hd') as (Hm & _). unfold on_matrix in Hm. rewrite Ee in *.
    apply Forall_app in HN. destruct HN as [HN _]. apply Forall_app in HF. destruct HF as [HF He]. apply Forall_inv in He. rewrite filter_app in HP. apply Forall_app in HP. destruct HP as [HP _]. destruct (no_shift_qs HN) as [Q1 Q2].
    apply (@md_run_err A NA OL AL (length ids) h w HD Hw argsort s0 es1 d' _ es2 Ha I0 HF HP); [|exact He|].
    - apply short_sides; [exact HN|]. intros e Hin. specialize (Hpre e Hin). pose proof (proj1 (Forall_forall _ _) HF _ Hin) as Hf. destruct e as [x vs| | |]; try exact I. destruct Hf as (_ & n & HR & H1 & H2). rewrite (hd_len HD Hw HR). lia.
    - right. split; [exact Hdn'|]. rewrite told_length. unfold dlen. lia.
  Qed.

  (** The cells *)
  Lemma chans_col c : chans (map (fun id => hide b c (column_of h (D id) c)) ids) = map (fun r => map (fun id => masked b (D id) r c) ids) (seq 0 h).
  Proof.
    clear - Hids. unfold chans. destruct (map _ ids) as [|v vs] eqn:E; [destruct ids; [congruence|discriminate]|]. assert (L : length v = h) by (destruct ids as [|id l]; [congruence|]; injection E as <- _; apply length_col). rewrite L, <- E. clear E L.
    apply map_ext_in. intros r Hr. apply in_seq in Hr. unfold chan. rewrite map_map. apply map_ext. intro id. change (column_of h (D id) c) with (Dc h (D id) c). rewrite hide_masked. unfold column_of.
    rewrite nth_indep with (d' := masked b (D id) 0 c) by (rewrite map_length, seq_length; lia). rewrite map_nth with (f := fun r => masked b (D id) r c), seq_nth by lia. reflexivity.
  Qed.
  Definition vals (r c : Z) : list num := map (fun id => D id (Z.to_nat r) (Z.to_nat c)) ids.
  Lemma chans_diag d : chans (map (fun id => diagonal_of h w (D id) d) ids) = diag_of vals h w d.
  Proof.
    clear - Hids. unfold chans. destruct (map _ ids) as [|v vs] eqn:E; [destruct ids; [congruence|discriminate]|]. assert (L : length v = Z.to_nat (dlen h w d)) by (destruct ids as [|id l]; [congruence|]; injection E as <- _; apply length_diag). rewrite L, <- E. clear E L.
    unfold diag_of at 1. apply map_ext_in. intros k Hk. apply in_seq in Hk. unfold chan, vals. rewrite map_map. apply map_ext. intro id. unfold diagonal_of, diag_of.
    rewrite nth_indep with (d' := (fun k => D id (Z.to_nat (Z.max 0 (- d) + Z.of_nat k)) (Z.to_nat (Z.max 0 d + Z.of_nat k))) 0) by (rewrite map_length, seq_length; lia).
    rewrite (map_nth (fun k => D id (Z.to_nat (Z.max 0 (- d) + Z.of_nat k)) (Z.to_nat (Z.max 0 d + Z.of_nat k)))), seq_nth by lia. reflexivity.
  Qed.

  Lemma mlog_in t r j vs : fine t -> In (r, Z.of_nat j, vs) (mlog (evs t)) -> exists r', r = Z.of_nat r' /\ r' < h /\ j < w /\ delivered self t r' j /\ vs = map (fun id => masked b (D id) r' j) ids.
  Proof.
    intros [Fc Fd] Hin. assert (HN : Forall no_shift (map (@tr A) (evs t))).
    { apply Forall_forall. intros e He. apply in_map_iff in He. destruct He as (e0 & <- & He). pose proof (proj1 (Forall_forall _ _) (told_no_shift t) _ He). destruct e0; try contradiction; exact I. }
    unfold mlog in Hin. rewrite (log_no_shift HN), in_flat_map in Hin. destruct Hin as (e & He & Hin). apply in_map_iff in He. destruct He as (e0 & <- & He). apply told_in in He.
    assert (MK : forall r' c d, In d (diags_in t) -> Z.abs (Z.of_nat r' - Z.of_nat c) = Z.abs d -> map (fun id => masked b (D id) r' c) ids = map (fun id => D id r' c) ids).
    { intros r' c d Hd E. destruct (Fd d Hd) as (_ & Hb & _). apply map_ext. intro id. unfold masked. rewrite E. destruct (Z.leb_spec (Z.abs d) b); [lia|reflexivity]. }
    destruct He as [(c & Hc & ->)|(d & Hd & He)].
    - cbn [tr event_cells] in Hin. rewrite chans_col in Hin. unfold col_cells in Hin. apply in_mapi in Hin. destruct Hin as (k & x & Hk & E). injection E as -> E ->. rewrite nth_error_map, nth_error_seq in Hk. destruct (Nat.ltb_spec k h); [|discriminate]. cbn [option_map Nat.add] in Hk. injection Hk as <-.
      exists k. cbn [Z.add] in *. assert (c = j) by lia. subst c. do 3 (split; [auto|]). split; [left; exact Hc|reflexivity].
    - destruct (Fd d Hd) as (Hm & Hb & Hs). destruct He as [->|[Es ->]]; cbn [tr event_cells] in Hin; rewrite chans_diag in Hin.
      + apply in_diag_of in Hin; [|exact Hm]. destruct Hin as (H1 & H2 & H3 & ->). exists (Z.to_nat r). rewrite Z2Nat.id by lia. do 3 (split; [lia|]). split; [right; left; rewrite Z2Nat.id, H3 by lia; exact Hd|]. unfold vals. rewrite (MK _ _ d Hd) by lia. rewrite Nat2Z.id. reflexivity.
      + destruct (Hself Es) as [Ehw Hsym]. specialize (Hs Es). rewrite Ehw in Hin. unfold on_matrix in Hm. apply in_diag_mirror in Hin; [|lia]. destruct Hin as (H1 & H2 & H3 & ->). exists (Z.to_nat r). rewrite Z2Nat.id by lia. do 3 (split; [lia|]).
        split; [right; right; split; [exact Es|]; rewrite Z2Nat.id, H3 by lia; exact Hd|]. unfold vals. rewrite (MK _ _ d Hd) by lia. rewrite Nat2Z.id. apply map_ext_in. intros id Hid. apply Hsym; [exact Hid|lia..].
  Qed.
  Lemma in_mlog t r j : fine t -> r < h -> j < w -> delivered self t r j -> In (Z.of_nat r, Z.of_nat j, map (fun id => masked b (D id) r j) ids) (mlog (evs t)).
  Proof.
    intros [Fc Fd] Hr Hj Hd. assert (HN : Forall no_shift (map (@tr A) (evs t))).
    { apply Forall_forall. intros e He. apply in_map_iff in He. destruct He as (e0 & <- & He). pose proof (proj1 (Forall_forall _ _) (told_no_shift t) _ He). destruct e0; try contradiction; exact I. }
    unfold mlog. rewrite (log_no_shift HN), in_flat_map.
    assert (MK : forall d, In d (diags_in t) -> Z.abs (Z.of_nat r - Z.of_nat j) = Z.abs d -> map (fun id => masked b (D id) r j) ids = map (fun id => D id r j) ids).
    { intros d Hd' E. destruct (Fd d Hd') as (_ & Hb & _). apply map_ext. intro id. unfold masked. rewrite E. destruct (Z.leb_spec (Z.abs d) b); [lia|reflexivity]. }
    destruct Hd as [Hd|[Hd|[Es Hd]]].
    - eexists. split; [apply in_map, told_in; left; exists j; split; [exact Hd|reflexivity]|]. cbn [tr event_cells]. rewrite chans_col. unfold col_cells. apply in_mapi. exists r. eexists. split; [rewrite nth_error_map, nth_error_seq; destruct (Nat.ltb_spec r h); [reflexivity|lia]|]. reflexivity.
    - destruct (Fd _ Hd) as (Hm & _). eexists. split; [apply in_map, told_in; right; eexists; split; [exact Hd|left; reflexivity]|]. cbn [tr event_cells]. rewrite chans_diag. apply in_diag_of; [exact Hm|]. do 3 (split; [lia|]). rewrite (MK _ Hd) by lia. unfold vals. rewrite !Nat2Z.id. reflexivity.
    - destruct (Fd _ Hd) as (Hm & _ & Hs). destruct (Hself Es) as [Ehw Hsym]. specialize (Hs Es). unfold on_matrix in Hm. eexists. split; [apply in_map, told_in; right; eexists; split; [exact Hd|right; split; [exact Es|reflexivity]]|]. cbn [tr event_cells]. rewrite chans_diag, Ehw.
      apply in_diag_mirror; [lia|]. rewrite <- Ehw at 1. do 3 (split; [lia|]). rewrite (MK _ Hd) by lia. unfold vals. rewrite !Nat2Z.id. apply map_ext_in. intros id Hid. apply Hsym; [exact Hid|lia..].
  Qed.

  (** Trivial matches do not count: their average is +inf. *)
  Lemma k_best_inf (vs : list num) k ds s : (forall x, In x vs -> x = PInf) -> k_best vs k ds s -> s = PInf.
  Proof.
    clear. intros Hi (ns & _ & _ & L & Hlt & _ & _ & ->).
    assert (Hv : forall i, In i ns -> nth i vs NaN = PInf) by (intros i Hin; apply Hi, nth_In, Hlt, Hin). destruct ns as [|i ns]; [cbn in L; lia|]. cbn [map fold_left]. rewrite (Hv i) by (left; reflexivity). cbn [fadd].
    assert (F : fold_left fadd (map (fun i => nth i vs NaN) ns) PInf = @PInf A).
    { assert (Hv' : forall i, In i ns -> nth i vs NaN = PInf) by (intros; apply Hv; right; assumption). clear - Hv'. induction ns as [|j ns IH]; [reflexivity|]. cbn [map fold_left]. rewrite (Hv' j) by (left; reflexivity). cbn [fadd]. apply IH. intros; apply Hv'; right; assumption. }
    rewrite F. reflexivity.
  Qed.

  Lemma md_of memn memz memd (sf : Q) argsort t : (1 <= sf)%Q -> (sf <= 2)%Q -> argsorts argsort -> fine t -> h <= w \/ (forall d, In d (diags_in t) -> (0 <= d)%Z) ->
    exists s0 s, md_init memn memz memd sf (length ids) h w = Ok s0 /\ foldM (md_step argsort) (evs t) s0 = Ok s /\
      forall k j, k < length ids -> j < w -> exists l r m, md_left s k j = Ok l /\ md_right s k j = Ok r /\ md_merged s k j = Ok m /\
        let values := fun r => map (fun id => D id r j) ids in
        smallest_average (fun r => (r < h /\ SEnd.given self b t r j) /\ r <= j) values k l /\ smallest_average (fun r => (r < h /\ SEnd.given self b t r j) /\ j < r) values k r /\
        smallest_average (fun r => r < h /\ SEnd.given self b t r j) values k m.
  Proof.
    intros S1 S2 Ha F Hs. destruct (@C50_lemma A NA OL AL memn memz memd sf (length ids) h w argsort (evs t) S1 S2 ltac:(destruct ids; [congruence|cbn; lia]) Hw Ha (told_fits F) (told_nonneg F) (told_sides F Hs)) as (s0 & s & E0 & E & G).
    exists s0, s. split; [exact E0|]. split; [exact E|]. intros k j Hk Hj. destruct (G k j Hk Hj) as (l & r & m & E1 & E2 & E3 & B1 & B2 & B3). destruct (no_shift_qs (told_no_shift t)) as [Q1 Q2]. rewrite Q2 in *. cbn [Z.add] in *. exists l, r, m. do 3 (split; [assumption|]). set (values := fun r => map (fun id => D id r j) ids).
    assert (Hg : forall r, SEnd.given self b t r j -> map (fun id => masked b (D id) r j) ids = values r) by (intros r' Hr'; apply map_ext; intro id; apply (given_masked (D id) Hr')).
    assert (ST : forall P (P' : nat -> Prop) x, (forall r, P' r <-> P (Z.of_nat r) = true) -> md_best (mlog (evs t)) P (Z.of_nat j) k x -> smallest_average (fun r => (r < h /\ SEnd.given self b t r j) /\ P' r) values k x).
    { intros P P' [[v q] ds] HP HB.
      assert (Hcell : forall r', (r' < h /\ SEnd.given self b t r' j) /\ P' r' -> In (Z.of_nat r', Z.of_nat j, values r') (mlog (evs t)) /\ P (Z.of_nat r') = true).
      { intros r' [[Hr' Hg'] HP']. split; [|apply HP, HP']. rewrite <- (Hg _ Hg'). apply in_mlog; try assumption. apply Hg'. }
      destruct HB as [(-> & -> & -> & HB)|(Hlt & Hq & (vs & Hin & Hkb) & HB)].
      - left. do 3 (split; [reflexivity|]). intros r' ds' s' Hr' Hkb. destruct (Hcell r' Hr') as [C1 C2]. eapply HB; eassumption.
      - right. split; [exact Hlt|]. destruct (mlog_in _ _ _ F Hin) as (r' & -> & Hr' & _ & Hd & ->). assert (Hf : SEnd.given self b t r' j).
        { split; [|exact Hd]. unfold far. cbn [fst snd]. apply Z.ltb_lt. destruct (Z_le_gt_dec (Z.abs (Z.of_nat r' - Z.of_nat j)) b) as [Hle|]; [|lia]. exfalso. apply k_best_inf in Hkb; [subst v; discriminate|]. intros x Hx. apply in_map_iff in Hx. destruct Hx as (id & <- & _). unfold masked. destruct (Z.leb_spec (Z.abs (Z.of_nat r' - Z.of_nat j)) b); [reflexivity|lia]. }
        rewrite (Hg _ Hf) in Hkb. exists r'. split; [split; [auto|]; apply HP, Hq|]. split; [reflexivity|]. split; [exact Hkb|]. intros r2 ds' s' Hr2 Hkb'. destruct (Hcell r2 Hr2) as [C1 C2]. eapply HB; eassumption. }
    split; [apply (ST (is_left (Z.of_nat j))); [|exact B1]; intro x; unfold is_left; rewrite Z.leb_le; lia|]. split; [apply (ST (is_right (Z.of_nat j))); [|exact B2]; intro x; unfold is_right; rewrite negb_true_iff, Z.leb_gt; lia|].
    assert (B4 := ST all_rows (fun _ => True) m ltac:(intro; split; auto) B3). clear - B4. destruct m as [[v q] ds]. destruct B4 as [(-> & -> & -> & HB)|(Hlt & r' & [Hr' _] & -> & Hkb & HB)].
    - left. do 3 (split; [reflexivity|]). intros. eapply HB; [split; [eassumption|exact I]|eassumption].
    - right. split; [exact Hlt|]. exists r'. split; [exact Hr'|]. split; [reflexivity|]. split; [exact Hkb|]. intros. eapply HB; [split; [eassumption|exact I]|eassumption].
  Qed.
End Many.

(** * PProfile: proofs about MatrixProfileLR and ShiftingMatrixProfileLR. *)
From Verif Require Import Np NpFacts Mat MRing PRing SLog PLog MProfile.
From Coq Require Import QArith.
Set Implicit Arguments.
Open Scope nat_scope.

Section PProfile.
  Context {A : Type} {NA : NumOps A} {OL : OrdLaws A}.
  Notation num := (Np.num A).

  (** Entry [c] of a (profile, index) pair. *)
  Definition ent (mp : list num) (mpi : list Z) (c : nat) : option (num * Z) :=
    match nth_error mp c, nth_error mpi c with Some v, Some i => Some (v, i) | _, _ => None end.

  Lemma ent_some mp mpi c : c < length mp -> c < length mpi -> exists b, ent mp mpi c = Some b.
  Proof.
    intros H1 H2. unfold ent. destruct (nth_error_lt_some mp H1) as [x ->].
    destruct (nth_error_lt_some mpi H2) as [y ->]. eauto.
  Qed.
  Lemma ent_inv mp mpi c v i : ent mp mpi c = Some (v, i) -> nth_error mp c = Some v /\ nth_error mpi c = Some i.
  Proof.
    unfold ent. destruct (nth_error mp c), (nth_error mpi c); try discriminate. intros [= -> ->]. auto.
  Qed.

  Lemma update_at_ok dist idx mp mpi lo :
    length idx = length dist -> lo + length dist <= length mp -> length mpi = length mp ->
    exists mp' mpi', update_at dist idx mp mpi lo (lo + length dist) = Ok (mp', mpi') /\
      length mp' = length mp /\ length mpi' = length mp /\
      forall c b, ent mp mpi c = Some b ->
        ent mp' mpi' c = Some (if (lo <=? c) && (c <? lo + length dist) then
             match nth_error idx (c - lo), nth_error dist (c - lo) with
             | Some r, Some x => bstep b (r, x) | _, _ => b end else b).
  Proof.
    intros H1 H2 H3. unfold update_at, update_mp.
    rewrite !length_lslice, H3, H1, Nat.eqb_refl.
    replace (Nat.min (lo + length dist) (length mp) - lo) with (length dist) by lia.
    rewrite Nat.eqb_refl. cbn [andb bind fst snd].
    eexists; eexists; split; [reflexivity|].
    assert (L1 : forall T (l : list T), length (zip_with (fun (u : bool) (dm : T * T) => if u then fst dm else snd dm)
        (zip_with fltb dist (lslice mp lo (lo + length dist))) (zip_with pair l l)) =
        Nat.min (length dist) (length l)).
    { intros T l. rewrite !length_zip_with, length_lslice. lia. }
    split; [|split].
    - apply length_splice. rewrite !length_zip_with, length_lslice. lia.
    - rewrite <- H3. apply length_splice. rewrite !length_zip_with, !length_lslice. lia.
    - intros c [v i] Hc. apply ent_inv in Hc. destruct Hc as [Hv Hi]. unfold ent.
      rewrite !nth_error_splice by (rewrite ?length_zip_with, ?length_lslice; lia).
      rewrite !length_zip_with, !length_lslice, H1, H3.
      replace (Nat.min (Nat.min (length dist) (Nat.min (lo + length dist) (length mp) - lo))
        (Nat.min (length dist) (Nat.min (lo + length dist) (length mp) - lo))) with (length dist) by lia.
      destruct (Nat.leb_spec lo c); destruct (Nat.ltb_spec c lo); try lia; cbn [andb];
        [|rewrite Hv, Hi; reflexivity].
      destruct (Nat.ltb_spec c (lo + length dist)); [|rewrite Hv, Hi; reflexivity].
      rewrite !nth_error_zip_with, !nth_error_lslice.
      replace (lo + length dist - lo) with (length dist) by lia.
      destruct (Nat.ltb_spec (c - lo) (length dist)); [|lia].
      replace (lo + (c - lo)) with c by lia. rewrite Hv, Hi.
      destruct (@nth_error_lt_some _ dist (c - lo)) as [x Hx]; [lia|].
      destruct (@nth_error_lt_some _ idx (c - lo)) as [r Hr]; [lia|].
      rewrite Hx, Hr. unfold bstep. cbn [fst snd]. destruct (fltb x v); reflexivity.
  Qed.

  (** One side of the profile mirrors the log. *)
  Definition side_ok (P : Z -> Z -> bool) (w : nat) (es : list (event num)) (mp : list num) (mpi : list Z) : Prop :=
    length mp = w /\ length mpi = w /\
    forall c, c < w -> ent mp mpi c =
      Some (best (sel (P (sshift es + Z.of_nat c)%Z) (sshift es + Z.of_nat c)%Z (log es))).

  (** An event without cells on this side and without series shift changes nothing. *)
  Lemma side_skip P w es e mp mpi :
    side_ok P w es mp mpi -> event_sshift e = 0%Z ->
    (forall a, sel (P a) a (event_cells (qshift es) (sshift es) e) = []) ->
    side_ok P w (es ++ [e]) mp mpi.
  Proof.
    intros (H1 & H2 & H3) Hs He. split; [exact H1|split; [exact H2|]]. intros c Hc.
    rewrite sshift_app. simpl (sshift [e]). rewrite Hs, !Z.add_0_r, log_snoc, sel_app, He, app_nil_r. apply H3, Hc.
  Qed.

  (** A diagonal lies on one side of the main diagonal of the complete matrix. *)
  Lemma diag_sides (qs ss d : Z) (vals : list num) (a : Z) :
    ((0 <= d + (ss - qs))%Z -> sel (is_right a) a (diag_cells qs ss d vals) = []) /\
    ((d + (ss - qs) < 0)%Z -> sel (is_left a) a (diag_cells qs ss d vals) = []).
  Proof.
    split; intro H; rewrite sel_diag; cbv zeta;
      destruct (Z.leb_spec 0 (a - ss - Z.max 0 d)); try reflexivity;
      destruct (nth_error vals _); try reflexivity; unfold is_left, is_right;
      destruct (Z.leb_spec (qs + Z.max 0 (- d) + (a - ss - Z.max 0 d)) a); try reflexivity; lia.
  Qed.

  Lemma side_diag (P : Z -> Z -> bool) w es d vals rest idx mp mpi mp' mpi' :
    let qs := qshift es in let ss := sshift es in
    side_ok P w es mp mpi ->
    (P = is_left /\ (0 <= d + (ss - qs))%Z \/ P = is_right /\ (d + (ss - qs) < 0)%Z) ->
    length idx = length vals ->
    (forall k, k < length vals -> nth_error idx k = Some (qs + Z.max 0 (- d) + Z.of_nat k)%Z) ->
    length mp' = length mp -> length mpi' = length mp ->
    let lo := Z.to_nat (Z.max 0 d) in
    (forall c b, ent mp mpi c = Some b ->
        ent mp' mpi' c = Some (if (lo <=? c) && (c <? lo + length vals) then
             match nth_error idx (c - lo), nth_error vals (c - lo) with
             | Some r, Some x => bstep b (r, x) | _, _ => b end else b)) ->
    side_ok P w (es ++ [EDiag d (vals :: rest)]) mp' mpi'.
  Proof.
    intros qs ss (H1 & H2 & H3) HP Hl Hidx L1 L2 lo Hu. split; [congruence|split; [congruence|]].
    intros c Hc. rewrite sshift_app, log_snoc, sel_app. simpl (sshift [_]). rewrite Z.add_0_r.
    fold ss qs. cbn [event_cells]. rewrite (Hu _ _ (H3 c Hc)). f_equal. fold ss qs.
    rewrite best_app, sel_diag. cbv zeta.
    replace (ss + Z.of_nat c - ss - Z.max 0 d)%Z with (Z.of_nat c - Z.max 0 d)%Z by lia.
    destruct (Nat.leb_spec lo c); destruct (Z.leb_spec 0 (Z.of_nat c - Z.max 0 d)); try lia; cbn [andb]; [|reflexivity].
    replace (Z.to_nat (Z.of_nat c - Z.max 0 d)) with (c - lo) by lia.
    destruct (Nat.ltb_spec c (lo + length vals)).
    - destruct (@nth_error_lt_some _ vals (c - lo)) as [x Hx]; [lia|]. rewrite Hx.
      rewrite Hidx by lia.
      replace (qs + Z.max 0 (- d) + (Z.of_nat c - Z.max 0 d))%Z with (qs + Z.max 0 (- d) + Z.of_nat (c - lo))%Z by lia.
      assert (E : P (ss + Z.of_nat c)%Z (qs + Z.max 0 (- d) + Z.of_nat (c - lo))%Z = true).
      { destruct HP as [[-> HP]|[-> HP]]; unfold is_left, is_right;
          destruct (Z.leb_spec (qs + Z.max 0 (- d) + Z.of_nat (c - lo)) (ss + Z.of_nat c)); auto; lia. }
      rewrite E. reflexivity.
    - rewrite nth_error_none_ge by lia. reflexivity.
  Qed.

  (** Cells of a fitting history lie in the rows and columns seen so far. *)
  Lemma log_bound h w (es : list (event num)) : Forall (fits h w) es -> forall r c v, In (r, c, v) (log es) ->
    (0 <= r < qshift es + Z.of_nat h)%Z /\ (0 <= c < sshift es + Z.of_nat w)%Z.
  Proof.
    intro H. induction es as [|e es IH] using rev_ind; intros r c v Hi; [destruct Hi|].
    apply Forall_app in H. destruct H as [H He]. apply Forall_inv in He.
    rewrite log_snoc in Hi. rewrite qshift_app, sshift_app. cbn [qshift sshift].
    pose proof (qshift_nonneg es). pose proof (sshift_nonneg es).
    apply in_app_or in Hi. destruct Hi as [Hi|Hi].
    - specialize (IH H _ _ _ Hi). destruct e; simpl event_qshift; simpl event_sshift; lia.
    - destruct e as [d vs|cc vs|n|n]; cbn [event_cells event_qshift event_sshift] in *.
      + destruct He as (Hd & vals & rest & -> & Hv1 & Hv2). apply in_mapi in Hi.
        destruct Hi as (k & x & Hk & [= -> -> ->]). apply nth_error_some_lt in Hk. lia.
      + destruct He as (Hd & vals & rest & -> & Hv1 & Hv2). apply in_mapi in Hi.
        destruct Hi as (k & x & Hk & [= -> -> ->]). apply nth_error_some_lt in Hk. lia.
      + destruct Hi.
      + destruct Hi.
  Qed.

  Lemma sel_empty P a (L : list (cell num)) : (forall r v, ~ In (r, a, v) L) -> sel P a L = [].
  Proof.
    intro H. destruct (sel P a L) as [|[r v] l] eqn:E; [reflexivity|]. exfalso.
    assert (In (r, v) (sel P a L)) as Hi by (rewrite E; left; reflexivity).
    apply in_sel in Hi. apply (H r v), Hi.
  Qed.

  (** ** MatrixProfileLR *)
  Definition mplr_ok (h w : nat) (es : list (event num)) (s : mplr) : Prop :=
    mp_range s = arange 0 (Nat.max w h) /\
    side_ok is_left w es (mp_left s) (mp_ileft s) /\ side_ok is_right w es (mp_right s) (mp_iright s).

  Lemma mplr_init_ok h w : mplr_ok h w [] (mplr_init h w).
  Proof.
    assert (S0 : forall P, side_ok P w [] (repeat PInf w) (repeat (-1)%Z w)).
    { intro P. split; [apply repeat_length|split; [apply repeat_length|]]. intros c Hc. unfold ent.
      rewrite !nth_error_repeat'. destruct (Nat.ltb_spec c w); [reflexivity|lia]. }
    split; [reflexivity|]. split; apply S0.
  Qed.

  Lemma range_slice qs L lo n k : lo + n <= L -> k < n ->
    nth_error (lslice (arange qs L) lo (lo + n)) k = Some (qs + Z.of_nat lo + Z.of_nat k)%Z.
  Proof.
    intros H1 H2. rewrite nth_error_lslice, nth_error_arange.
    destruct (Nat.ltb_spec k (lo + n - lo)); [|lia]. destruct (Nat.ltb_spec (lo + k) L); [|lia].
    f_equal; lia.
  Qed.

  Lemma mplr_diag_ok h w es s d vs :
    Forall no_shift es -> mplr_ok h w es s -> fits h w (EDiag d vs) ->
    exists s', mplr_diag s d vs = Ok s' /\ mplr_ok h w (es ++ [EDiag d vs]) s'.
  Proof.
    intros Hn (Hr & Hl & Hri) (Hd & vals & rest & -> & Hv1 & Hv2).
    destruct (no_shift_qs Hn) as [Q S]. unfold mplr_diag. cbn [row0 bind]. rewrite Hr.
    destruct (Z.leb_spec 0 d) as [Hpos|Hneg].
    - replace (Z.to_nat d) with (Z.to_nat (Z.max 0 d)) by lia.
      assert (Li : length (lslice (arange 0 (Nat.max w h)) 0 (length vals)) = length vals)
        by (rewrite length_lslice, length_arange; lia).
      pose proof Hl as (L1 & L2 & _).
      destruct (@update_at_ok vals _ (mp_left s) (mp_ileft s) (Z.to_nat (Z.max 0 d)) Li) as (mp' & mpi' & E & E1 & E2 & E3);
        [lia|lia|]. rewrite E. cbn [bind fst snd]. eexists; split; [reflexivity|].
      split; [reflexivity|]. cbn [mp_left mp_right mp_ileft mp_iright]. split.
      + eapply side_diag; [exact Hl| | | |exact E1|exact E2|exact E3].
        * left. rewrite Q, S. split; [reflexivity|lia].
        * exact Li.
        * intros k Hk. rewrite Q. change (length vals) with (0 + length vals). rewrite range_slice by lia. f_equal; lia.
      + apply side_skip; [exact Hri|reflexivity|]. intro a. cbn [event_cells].
        apply diag_sides. rewrite Q, S. lia.
    - set (n := Z.to_nat (- d)).
      assert (Li : length (lslice (arange 0 (Nat.max w h)) n (n + length vals)) = length vals)
        by (rewrite length_lslice, length_arange; lia).
      pose proof Hri as (L1 & L2 & _).
      destruct (@update_at_ok vals _ (mp_right s) (mp_iright s) 0 Li) as (mp' & mpi' & E & E1 & E2 & E3);
        [lia|lia|]. cbn [plus] in E. rewrite E. cbn [bind fst snd]. eexists; split; [reflexivity|].
      split; [reflexivity|]. cbn [mp_left mp_right mp_ileft mp_iright]. split.
      + apply side_skip; [exact Hl|reflexivity|]. intro a. cbn [event_cells].
        apply diag_sides. rewrite Q, S. lia.
      + eapply side_diag; [exact Hri| | | |exact E1|exact E2|].
        * right. rewrite Q, S. split; [reflexivity|lia].
        * exact Li.
        * intros k Hk. rewrite Q. rewrite range_slice by lia. f_equal; lia.
        * replace (Z.to_nat (Z.max 0 d)) with 0 by lia. exact E3.
  Qed.

  Lemma mplr_diags_run h w es :
    Forall is_diag es -> Forall (fits h w) es ->
    exists s, mplr_run (mplr_init h w) es = Ok s /\ mplr_ok h w es s.
  Proof.
    intros Hd Hf.
    assert (Hn : Forall no_shift es) by (eapply Forall_impl; [|exact Hd]; intros []; simpl; tauto).
    induction es as [|e es IH] using rev_ind.
    - eexists; split; [reflexivity|apply mplr_init_ok].
    - apply Forall_app in Hd, Hf, Hn. destruct Hd as [Hd He], Hf as [Hf Hfe], Hn as [Hn _].
      destruct (IH Hd Hf Hn) as (s & E & Hs). apply Forall_inv in He, Hfe.
      destruct e as [d vs| | |]; simpl in He; try contradiction.
      destruct (mplr_diag_ok Hn Hs Hfe) as (s' & E' & Hs'). exists s'. split; [|exact Hs'].
      unfold mplr_run in *. rewrite foldM_app, E. simpl. rewrite E'. reflexivity.
  Qed.

  Lemma mplr_ok_first h w es s : mplr_ok h w es s -> Forall no_shift es ->
    length (mp_left s) = w /\ length (mp_right s) = w /\ length (mp_ileft s) = w /\ length (mp_iright s) = w /\
    forall c, c < w -> exists vl il vr ir,
      nth_error (mp_left s) c = Some vl /\ nth_error (mp_ileft s) c = Some il /\
      nth_error (mp_right s) c = Some vr /\ nth_error (mp_iright s) c = Some ir /\
      let a := Z.of_nat c in
      is_first_best (sel (is_left a) a (log es)) vl il /\
      is_first_best (sel (is_right a) a (log es)) vr ir.
  Proof.
    intros (_ & (L1 & L2 & L3) & (R1 & R2 & R3)) Hn. repeat (split; [assumption|]).
    destruct (no_shift_qs Hn) as [Q S]. rewrite S in *.
    intros c Hc. specialize (L3 c Hc). specialize (R3 c Hc). rewrite Z.add_0_l in *.
    destruct (best (sel (is_left (Z.of_nat c)) (Z.of_nat c) (log es))) as [vl il] eqn:El.
    destruct (best (sel (is_right (Z.of_nat c)) (Z.of_nat c) (log es))) as [vr ir] eqn:Er.
    apply ent_inv in L3, R3. exists vl, il, vr, ir. repeat (split; [apply L3 || apply R3|]).
    cbv zeta. split.
    - pose proof (best_first (sel (is_left (Z.of_nat c)) (Z.of_nat c) (log es))) as B. rewrite El in B. exact B.
    - pose proof (best_first (sel (is_right (Z.of_nat c)) (Z.of_nat c) (log es))) as B. rewrite Er in B. exact B.
  Qed.

  (** ** process_column of MatrixProfileLR *)
  Lemma setitem_nth {T} (l : list T) c x : c < length l -> exists l', setitem l c x = Ok l' /\
    length l' = length l /\ forall j, nth_error l' j = if j =? c then Some x else nth_error l j.
  Proof.
    intro H. exists (splice l c [x]). split; [apply setitem_ok, H|]. split; [apply length_set1, H|].
    intro j. rewrite nth_error_set1 by exact H. reflexivity.
  Qed.

  Lemma first_min_firstn vals n i v : first_min (firstn n vals) i v -> is_lowest vals 0 (Nat.min n (length vals)) v i.
  Proof.
    intros (H1 & H2 & H3). pose proof (nth_error_some_lt _ _ H1) as L. rewrite firstn_length in L.
    rewrite nth_error_firstn in H1. destruct (Nat.ltb_spec i n); [|lia].
    split; [lia|]. split; [exact H1|]. intros j x Hj E.
    assert (E' : nth_error (firstn n vals) j = Some x) by (rewrite nth_error_firstn; destruct (Nat.ltb_spec j n); [exact E|lia]).
    split; [eapply H2; exact E'|]. intro Hl. eapply H3; eassumption.
  Qed.
  Lemma first_min_skipn vals n i v : first_min (skipn n vals) i v -> is_lowest vals n (length vals) v (n + i).
  Proof.
    intros (H1 & H2 & H3). pose proof (nth_error_some_lt _ _ H1) as L. rewrite skipn_length in L.
    rewrite nth_error_skipn in H1.
    split; [lia|]. split; [exact H1|]. intros j x Hj E.
    assert (E' : nth_error (skipn n vals) (j - n) = Some x) by (rewrite nth_error_skipn; replace (n + (j - n)) with j by lia; exact E).
    split; [eapply H2; exact E'|]. intro Hl. apply (H3 (j - n)); [lia|exact E'].
  Qed.
  Lemma no_nan_firstn n (l : list num) : no_nan l -> no_nan (firstn n l).
  Proof. intros H x Hx. apply H. rewrite <- (firstn_skipn n l). apply in_or_app. auto. Qed.
  Lemma no_nan_skipn n (l : list num) : no_nan l -> no_nan (skipn n l).
  Proof. intros H x Hx. apply H. rewrite <- (firstn_skipn n l). apply in_or_app. auto. Qed.

  Lemma mplr_col_ok w s c vals rest :
    length (mp_left s) = w -> length (mp_ileft s) = w -> length (mp_right s) = w -> length (mp_iright s) = w ->
    c < w -> vals <> [] -> no_nan vals ->
    exists s', mplr_col s c (vals :: rest) = Ok s' /\ mp_range s' = mp_range s /\
      length (mp_left s') = w /\ length (mp_ileft s') = w /\ length (mp_right s') = w /\ length (mp_iright s') = w /\
      (forall j, j <> c -> nth_error (mp_left s') j = nth_error (mp_left s) j /\
         nth_error (mp_ileft s') j = nth_error (mp_ileft s) j /\
         nth_error (mp_right s') j = nth_error (mp_right s) j /\
         nth_error (mp_iright s') j = nth_error (mp_iright s) j) /\
      (exists v i, nth_error (mp_left s') c = Some v /\ nth_error (mp_ileft s') c = Some (Z.of_nat i) /\
         is_lowest vals 0 (Nat.min (c + 1) (length vals)) v i) /\
      (if c + 2 <=? length vals then
         exists v i, nth_error (mp_right s') c = Some v /\ nth_error (mp_iright s') c = Some (Z.of_nat i) /\
           is_lowest vals (c + 1) (length vals) v i
       else nth_error (mp_right s') c = nth_error (mp_right s) c /\
            nth_error (mp_iright s') c = nth_error (mp_iright s) c).
  Proof.
    intros L1 L2 L3 L4 Hc Hv Hn. unfold mplr_col. cbn [row0 bind].
    destruct (@amin_argmin _ _ _ (firstn (c + 1) vals)) as (i & v & E1 & E2 & F).
    { destruct vals; [congruence|]. rewrite Nat.add_1_r. discriminate. }
    { apply no_nan_firstn, Hn. }
    rewrite E1, E2. cbn [bind].
    destruct (@setitem_nth _ (mp_left s) c v) as (l1 & -> & G1 & N1); [lia|]. cbn [bind].
    destruct (@setitem_nth _ (mp_ileft s) c (Z.of_nat i)) as (l2 & -> & G2 & N2); [lia|]. cbn [bind].
    apply first_min_firstn in F.
    destruct (Nat.leb_spec (c + 2) (length vals)) as [Hr|Hr].
    - destruct (@amin_argmin _ _ _ (skipn (c + 1) vals)) as (i' & v' & E1' & E2' & F').
      { intro E. apply (f_equal (@length _)) in E. rewrite skipn_length in E. simpl in E. lia. }
      { apply no_nan_skipn, Hn. }
      rewrite E1', E2'. cbn [bind].
      destruct (@setitem_nth _ (mp_right s) c v') as (l3 & -> & G3 & N3); [lia|]. cbn [bind].
      destruct (@setitem_nth _ (mp_iright s) c (Z.of_nat i' + Z.of_nat c + 1)%Z) as (l4 & -> & G4 & N4); [lia|]. cbn [bind].
      apply first_min_skipn in F'.
      eexists; split; [reflexivity|]. cbn [mp_range mp_left mp_ileft mp_right mp_iright].
      split; [reflexivity|]. do 4 (split; [congruence|]). split; [|split].
      + intros j Hj. rewrite N1, N2, N3, N4. destruct (Nat.eqb_spec j c); [contradiction|]. auto.
      + exists v, i. rewrite N1, N2, Nat.eqb_refl. auto.
      + exists v', (c + 1 + i'). rewrite N3, N4, Nat.eqb_refl. split; [reflexivity|]. split; [f_equal; lia|exact F'].
    - eexists; split; [reflexivity|]. cbn [mp_range mp_left mp_ileft mp_right mp_iright].
      split; [reflexivity|]. do 4 (split; [congruence|]). split; [|split].
      + intros j Hj. rewrite N1, N2. destruct (Nat.eqb_spec j c); [contradiction|]. auto.
      + exists v, i. rewrite N1, N2, Nat.eqb_refl. auto.
      + auto.
  Qed.

  (** ** Any mix of diagonals and columns of one matrix *)
  Definition side_best (P : Z -> Z -> bool) (w : nat) (es : list (event num)) (mp : list num) (mpi : list Z) : Prop :=
    length mp = w /\ length mpi = w /\
    forall c, c < w -> exists v i, ent mp mpi c = Some (v, i) /\
      is_best (sel (P (Z.of_nat c)) (Z.of_nat c) (log es)) v i.

  Lemma is_best_step cells v i r x : is_best cells v i ->
    is_best (cells ++ [(r, x)]) (fst (bstep (v, i) (r, x))) (snd (bstep (v, i) (r, x))).
  Proof.
    intro H. unfold bstep. cbn [fst snd]. destruct (fltb x v) eqn:E; cbn [fst snd].
    - right. assert (Hx : fltb x PInf = true).
      { destruct H as [[-> _]|(H & _)]; [exact E|eapply fltb_trans; eassumption]. }
      split; [exact Hx|]. split; [apply in_or_app; right; left; reflexivity|].
      intros r' x' Hi. apply in_app_or in Hi. destruct Hi as [Hi|[[= <- <-]|[]]]; [|apply fltb_irrefl].
      destruct (fltb x' x) eqn:E2; [|reflexivity].
      destruct H as [[-> H]|(H & _ & M)].
      + rewrite <- (H _ _ Hi). symmetry. eapply fltb_trans; eassumption.
      + rewrite <- (M _ _ Hi). symmetry. eapply fltb_trans; eassumption.
    - destruct H as [[-> H]|(H & I & M)].
      + left. split; [reflexivity|]. intros r' x' Hi. apply in_app_or in Hi.
        destruct Hi as [Hi|[[= <- <-]|[]]]; [eapply H; exact Hi|exact E].
      + right. split; [exact H|]. split; [apply in_or_app; auto|]. intros r' x' Hi. apply in_app_or in Hi.
        destruct Hi as [Hi|[[= <- <-]|[]]]; [eapply M; exact Hi|exact E].
  Qed.

  Lemma is_best_ext cells cells' v i : (forall r x, In (r, x) cells <-> In (r, x) cells') ->
    is_best cells v i -> is_best cells' v i.
  Proof.
    intros E [[-> H]|(H & I & M)].
    - left. split; [reflexivity|]. intros r x Hi. apply (H r), E, Hi.
    - right. split; [exact H|]. split; [apply E, I|]. intros r x Hi. apply (M r), E, Hi.
  Qed.

  Lemma side_best_skip P w es e mp mpi :
    side_best P w es mp mpi ->
    (forall a, sel (P a) a (event_cells (qshift es) (sshift es) e) = []) ->
    side_best P w (es ++ [e]) mp mpi.
  Proof.
    intros (H1 & H2 & H3) He. split; [exact H1|split; [exact H2|]]. intros c Hc.
    rewrite log_snoc, sel_app, He, app_nil_r. apply H3, Hc.
  Qed.

  Lemma side_best_diag (P : Z -> Z -> bool) w es d vals rest idx mp mpi mp' mpi' :
    Forall no_shift es ->
    side_best P w es mp mpi ->
    (P = is_left /\ (0 <= d)%Z \/ P = is_right /\ (d < 0)%Z) ->
    length idx = length vals ->
    (forall k, k < length vals -> nth_error idx k = Some (Z.max 0 (- d) + Z.of_nat k)%Z) ->
    length mp' = length mp -> length mpi' = length mp ->
    let lo := Z.to_nat (Z.max 0 d) in
    (forall c b, ent mp mpi c = Some b ->
        ent mp' mpi' c = Some (if (lo <=? c) && (c <? lo + length vals) then
             match nth_error idx (c - lo), nth_error vals (c - lo) with
             | Some r, Some x => bstep b (r, x) | _, _ => b end else b)) ->
    side_best P w (es ++ [EDiag d (vals :: rest)]) mp' mpi'.
  Proof.
    intros Hns (H1 & H2 & H3) HP Hl Hidx L1 L2 lo Hu. split; [congruence|split; [congruence|]].
    destruct (no_shift_qs Hns) as [Q S].
    intros c Hc. destruct (H3 c Hc) as (v & i & Hb & HB). rewrite log_snoc, sel_app, (Hu _ _ Hb).
    cbn [event_cells]. rewrite sel_diag, Q, S. cbv zeta.
    replace (Z.of_nat c - 0 - Z.max 0 d)%Z with (Z.of_nat c - Z.max 0 d)%Z by lia.
    destruct (Nat.leb_spec lo c); destruct (Z.leb_spec 0 (Z.of_nat c - Z.max 0 d)); try lia; cbn [andb];
      [|exists v, i; rewrite app_nil_r; auto].
    replace (Z.to_nat (Z.of_nat c - Z.max 0 d)) with (c - lo) by lia.
    destruct (Nat.ltb_spec c (lo + length vals)).
    - destruct (@nth_error_lt_some _ vals (c - lo)) as [x Hx]; [lia|]. rewrite Hx.
      rewrite Hidx by lia.
      replace (0 + Z.max 0 (- d) + (Z.of_nat c - Z.max 0 d))%Z with (Z.max 0 (- d) + Z.of_nat (c - lo))%Z by lia.
      assert (E : P (Z.of_nat c)%Z (Z.max 0 (- d) + Z.of_nat (c - lo))%Z = true).
      { destruct HP as [[-> HP]|[-> HP]]; unfold is_left, is_right;
          destruct (Z.leb_spec (Z.max 0 (- d) + Z.of_nat (c - lo)) (Z.of_nat c)); auto; lia. }
      rewrite E.
      exists (fst (bstep (v, i) ((Z.max 0 (- d) + Z.of_nat (c - lo))%Z, x))), (snd (bstep (v, i) ((Z.max 0 (- d) + Z.of_nat (c - lo))%Z, x))).
      split; [f_equal; apply surjective_pairing|]. apply is_best_step, HB.
    - rewrite nth_error_none_ge by lia. exists v, i. rewrite app_nil_r. auto.
  Qed.

  Definition mplr_mix_ok (h w : nat) (es : list (event num)) (s : mplr) : Prop :=
    mp_range s = arange 0 (Nat.max w h) /\
    side_best is_left w es (mp_left s) (mp_ileft s) /\ side_best is_right w es (mp_right s) (mp_iright s).

  Lemma mplr_mix_diag h w es s d vs :
    Forall no_shift es -> mplr_mix_ok h w es s -> fits h w (EDiag d vs) ->
    exists s', mplr_diag s d vs = Ok s' /\ mplr_mix_ok h w (es ++ [EDiag d vs]) s'.
  Proof.
    intros Hn (Hr & Hl & Hri) (Hd & vals & rest & -> & Hv1 & Hv2).
    destruct (no_shift_qs Hn) as [Q S]. unfold mplr_diag. cbn [row0 bind]. rewrite Hr.
    destruct (Z.leb_spec 0 d) as [Hpos|Hneg].
    - replace (Z.to_nat d) with (Z.to_nat (Z.max 0 d)) by lia.
      assert (Li : length (lslice (arange 0 (Nat.max w h)) 0 (length vals)) = length vals)
        by (rewrite length_lslice, length_arange; lia).
      pose proof Hl as (L1 & L2 & _).
      destruct (@update_at_ok vals _ (mp_left s) (mp_ileft s) (Z.to_nat (Z.max 0 d)) Li) as (mp' & mpi' & E & E1 & E2 & E3);
        [lia|lia|]. rewrite E. cbn [bind fst snd]. eexists; split; [reflexivity|].
      split; [reflexivity|]. cbn [mp_left mp_right mp_ileft mp_iright]. split.
      + eapply side_best_diag; [exact Hn|exact Hl| | | |exact E1|exact E2|exact E3].
        * left. split; [reflexivity|lia].
        * exact Li.
        * intros k Hk. change (length vals) with (0 + length vals). rewrite range_slice by lia. f_equal; lia.
      + apply side_best_skip; [exact Hri|]. intro a. cbn [event_cells].
        apply diag_sides. rewrite Q, S. lia.
    - set (n := Z.to_nat (- d)).
      assert (Li : length (lslice (arange 0 (Nat.max w h)) n (n + length vals)) = length vals)
        by (rewrite length_lslice, length_arange; lia).
      pose proof Hri as (L1 & L2 & _).
      destruct (@update_at_ok vals _ (mp_right s) (mp_iright s) 0 Li) as (mp' & mpi' & E & E1 & E2 & E3);
        [lia|lia|]. cbn [plus] in E. rewrite E. cbn [bind fst snd]. eexists; split; [reflexivity|].
      split; [reflexivity|]. cbn [mp_left mp_right mp_ileft mp_iright]. split.
      + apply side_best_skip; [exact Hl|]. intro a. cbn [event_cells].
        apply diag_sides. rewrite Q, S. lia.
      + eapply side_best_diag; [exact Hn|exact Hri| | | |exact E1|exact E2|].
        * right. split; [reflexivity|lia].
        * exact Li.
        * intros k Hk. rewrite range_slice by lia. f_equal; lia.
        * replace (Z.to_nat (Z.max 0 d)) with 0 by lia. exact E3.
  Qed.

  Lemma is_lowest_best vals lo hi v i cells :
    isnan v = false ->
    is_lowest vals lo hi v i ->
    (forall r x, In (r, x) cells <-> exists k, lo <= k < hi /\ r = Z.of_nat k /\ nth_error vals k = Some x) ->
    is_best cells v (Z.of_nat i).
  Proof.
    intros Hnan (H1 & H2 & H3) HC.
    assert (I : In (Z.of_nat i, v) cells) by (apply HC; exists i; auto).
    assert (M : forall r x, In (r, x) cells -> fltb x v = false).
    { intros r x Hi. apply HC in Hi. destruct Hi as (k & Hk & _ & E). eapply H3; eassumption. }
    destruct (fltb v PInf) eqn:E; [right; auto|].
    destruct v; try discriminate. left. auto.
  Qed.

  Lemma side_best_other P w es c vals rest mp mpi mp' mpi' :
    Forall no_shift es -> side_best P w es mp mpi -> length mp' = w -> length mpi' = w ->
    (forall j, j <> c -> nth_error mp' j = nth_error mp j /\ nth_error mpi' j = nth_error mpi j) ->
    (c < w -> exists v i, ent mp' mpi' c = Some (v, i) /\
      is_best (sel (P (Z.of_nat c)) (Z.of_nat c) (log (es ++ [ECol c (vals :: rest)]))) v i) ->
    side_best P w (es ++ [ECol c (vals :: rest)]) mp' mpi'.
  Proof.
    intros Hn (H1 & H2 & H3) L1 L2 Ho Hc. split; [exact L1|split; [exact L2|]]. intros j Hj.
    destruct (no_shift_qs Hn) as [Q S].
    destruct (Nat.eq_dec j c) as [->|Hne]; [apply Hc, Hj|].
    destruct (H3 j Hj) as (v & i & E & B). exists v, i. destruct (Ho j Hne) as [O1 O2].
    unfold ent in *. rewrite O1, O2. split; [exact E|].
    rewrite log_snoc, sel_app. cbn [event_cells]. rewrite sel_col, S.
    destruct (Z.eqb_spec (0 + Z.of_nat c) (Z.of_nat j)); [lia|]. rewrite app_nil_r. exact B.
  Qed.

  Lemma mplr_mix_col h w D es s c vs :
    Forall no_shift es -> mplr_mix_ok h w es s -> Forall (fits h w) (es ++ [ECol c vs]) ->
    full_cols h (ECol c vs) -> cols_no_nan (ECol c vs) -> agrees D (log (es ++ [ECol c vs])) ->
    exists s', mplr_col s c vs = Ok s' /\ mplr_mix_ok h w (es ++ [ECol c vs]) s'.
  Proof.
    intros Hn (Hr & Hl & Hri) Hf Hfull Hnan Hag. apply Forall_app in Hf. destruct Hf as [Hf Hfe].
    apply Forall_inv in Hfe. destruct Hfe as (Hc & vals & rest & -> & Hv1 & Hv2).
    assert (Hh : length vals = h) by exact (Hfull vals (or_introl eq_refl)).
    assert (Hnv : no_nan vals) by exact (Hnan vals (or_introl eq_refl)).
    destruct (no_shift_qs Hn) as [Q S].
    pose proof Hl as (L1 & L2 & L3). pose proof Hri as (R1 & R2 & R3).
    destruct (@mplr_col_ok w s c vals rest L1 L2 R1 R2 Hc) as
      (s' & E & E0 & E1 & E2 & E3 & E4 & Hother & (vl & il & Ev & Ei & Hlow) & Hright); [destruct vals; [simpl in *; lia|discriminate]|exact Hnv|].
    exists s'. split; [exact E|]. split; [congruence|].
    (* cells of column c after the event *)
    assert (HC : forall P r x, In (r, x) (sel P (Z.of_nat c) (log (es ++ [ECol c (vals :: rest)]))) <->
       exists k, k < h /\ r = Z.of_nat k /\ nth_error vals k = Some x /\ P r = true).
    { intros P r x. rewrite in_sel, log_snoc, in_app_iff. cbn [event_cells]. rewrite Q, S. split.
      - intros [[Hi|Hi] HP].
        + destruct (@log_bound h w es Hf _ _ _ Hi) as [B1 _]. rewrite Q in B1.
          exists (Z.to_nat r). split; [lia|]. split; [lia|]. split; [|exact HP].
          destruct (@nth_error_lt_some _ vals (Z.to_nat r)) as [y Hy]; [lia|]. rewrite Hy. f_equal.
          rewrite (Hag r (Z.of_nat c) x). 2:{ rewrite log_snoc. apply in_or_app. auto. }
          rewrite (Hag r (Z.of_nat c) y). { reflexivity. } rewrite log_snoc. apply in_or_app. right.
          cbn [event_cells]. rewrite Q, S. apply in_mapi. exists (Z.to_nat r), y. split; [exact Hy|].
          rewrite Z2Nat.id by lia. reflexivity.
        + apply in_mapi in Hi. destruct Hi as (k & y & Hk & [= -> ->]).
          pose proof (nth_error_some_lt _ _ Hk). exists k. repeat split; try assumption; lia.
      - intros (k & Hk & -> & E' & HP). split; [|exact HP]. right. apply in_mapi. exists k, x. auto. }
    split.
    - eapply side_best_other; try eassumption; [intros j Hj; split; apply Hother, Hj|].
      intros _. exists vl, (Z.of_nat il). split; [unfold ent; rewrite Ev, Ei; reflexivity|].
      eapply is_lowest_best; [|exact Hlow|].
      + eapply no_nan_nth; [exact Hnv|apply Hlow].
      + intros r x. rewrite HC. unfold is_left. split.
        * intros (k & Hk & -> & Hx & HP). exists k. apply Z.leb_le in HP. split; [lia|auto].
        * intros (k & Hk & -> & Hx). exists k. split; [lia|]. split; [reflexivity|]. split; [exact Hx|].
          apply Z.leb_le. lia.
    - destruct (Nat.leb_spec (c + 2) (length vals)) as [Hlen|Hlen].
      + destruct Hright as (vr & ir & Ev' & Ei' & Hlow').
        eapply side_best_other; try eassumption; [intros j Hj; split; apply Hother, Hj|].
        intros _. exists vr, (Z.of_nat ir). split; [unfold ent; rewrite Ev', Ei'; reflexivity|].
        eapply is_lowest_best; [|exact Hlow'|].
        * eapply no_nan_nth; [exact Hnv|apply Hlow'].
        * intros r x. rewrite HC. unfold is_right. split.
          -- intros (k & Hk & -> & Hx & HP). exists k. apply negb_true_iff, Z.leb_gt in HP. split; [lia|auto].
          -- intros (k & Hk & -> & Hx). exists k. split; [lia|]. split; [reflexivity|]. split; [exact Hx|].
             apply negb_true_iff, Z.leb_gt. lia.
      + destruct Hright as [Hr1 Hr2].
        eapply side_best_other; try eassumption; [intros j Hj; split; apply Hother, Hj|].
        intros _. destruct (R3 c Hc) as (v & i & Eb & B). exists v, i.
        unfold ent in *. rewrite Hr1, Hr2. split; [exact Eb|].
        eapply is_best_ext; [|exact B]. intros r x. rewrite HC, in_sel. unfold is_right. split.
        * intros [Hi HP]. destruct (@log_bound h w es Hf _ _ _ Hi) as [B1 _]. rewrite Q in B1.
          apply negb_true_iff, Z.leb_gt in HP. lia.
        * intros (k & Hk & -> & Hx & HP). apply negb_true_iff, Z.leb_gt in HP. lia.
  Qed.

  Lemma agrees_app {T} D (L L' : list (cell T)) : agrees D (L ++ L') -> agrees D L /\ agrees D L'.
  Proof. intro H. split; intros r c v Hi; apply H; apply in_or_app; auto. Qed.

  Lemma mplr_init_mix h w : mplr_mix_ok h w [] (mplr_init h w).
  Proof.
    assert (S0 : forall P, side_best P w [] (repeat PInf w) (repeat (-1)%Z w)).
    { intro P. split; [apply repeat_length|split; [apply repeat_length|]]. intros c Hc. unfold ent.
      exists PInf, (-1)%Z.
      rewrite !nth_error_repeat'. destruct (Nat.ltb_spec c w); [|lia]. split; [reflexivity|].
      left. split; [reflexivity|intros ? ? []]. }
    split; [reflexivity|]. split; apply S0.
  Qed.

  Lemma mplr_mix_run h w D es :
    Forall no_shift es -> Forall (fits h w) es -> Forall (full_cols h) es -> Forall cols_no_nan es ->
    agrees D (log es) ->
    exists s, mplr_run (mplr_init h w) es = Ok s /\ mplr_mix_ok h w es s.
  Proof.
    intros Hn Hf Hc Hnan Hag. induction es as [|e es IH] using rev_ind.
    - eexists; split; [reflexivity|apply mplr_init_mix].
    - pose proof Hf as Hf0. pose proof Hag as Hag0.
      apply Forall_app in Hn, Hf, Hc, Hnan. destruct Hn as [Hn Hne], Hf as [Hf Hfe], Hc as [Hc Hce], Hnan as [Hnan Hnane].
      apply Forall_inv in Hne, Hfe, Hce, Hnane. rewrite log_snoc in Hag. apply agrees_app in Hag. destruct Hag as [Hag _].
      destruct (IH Hn Hf Hc Hnan Hag) as (s & E & Hs).
      unfold mplr_run in *. 
      destruct e as [d vs|c vs| |]; simpl in Hne; try contradiction.
      + destruct (mplr_mix_diag Hn Hs Hfe) as (s' & E' & Hs'). exists s'. split; [|exact Hs'].
        rewrite foldM_app, E. simpl. rewrite E'. reflexivity.
      + destruct (mplr_mix_col Hn Hs Hf0 Hce Hnane Hag0) as (s' & E' & Hs'). exists s'. split; [|exact Hs'].
        rewrite foldM_app, E. simpl. rewrite E'. reflexivity.
  Qed.

  (** ** The merged profile *)
  Lemma nth_merge l r c vl vr : nth_error l c = Some vl -> nth_error r c = Some vr ->
    nth_error (merge_mp l r) c = Some (if fltb vl vr then vl else vr).
  Proof. intros H1 H2. unfold merge_mp. rewrite nth_error_zip_with, H1, H2. reflexivity. Qed.
  Lemma nth_merge_idx l r il ir c vl vr i j : nth_error l c = Some vl -> nth_error r c = Some vr ->
    nth_error il c = Some i -> nth_error ir c = Some j ->
    nth_error (merge_idx l r il ir) c = Some (if fltb vl vr then i else j).
  Proof. intros H1 H2 H3 H4. unfold merge_idx. rewrite !nth_error_zip_with, H1, H2, H3, H4. reflexivity. Qed.

  Lemma merge_best a (L : list (cell num)) vl il vr ir :
    is_best (sel (is_left a) a L) vl il -> is_best (sel (is_right a) a L) vr ir ->
    is_best (sel all_rows a L) (if fltb vl vr then vl else vr) (if fltb vl vr then il else ir).
  Proof.
    intros Hl Hr.
    assert (Hcase : forall r x, In (r, x) (sel all_rows a L) ->
              In (r, x) (sel (is_left a) a L) \/ In (r, x) (sel (is_right a) a L)).
    { intros r x Hi. apply in_sel in Hi. destruct Hi as [Hi _]. destruct (r <=? a)%Z eqn:E.
      - left. apply in_sel. split; [exact Hi|exact E].
      - right. apply in_sel. split; [exact Hi|]. unfold is_right. rewrite E. reflexivity. }
    assert (Hl' : forall r x, In (r, x) (sel (is_left a) a L) -> fltb x vl = false).
    { destruct Hl as [[-> H]|(_ & _ & H)]; exact H. }
    assert (Hr' : forall r x, In (r, x) (sel (is_right a) a L) -> fltb x vr = false).
    { destruct Hr as [[-> H]|(_ & _ & H)]; exact H. }
    assert (Nl : isnan vl = false) by (destruct Hl as [[-> _]|(H & _)]; [reflexivity|apply (fltb_nonnan _ _ H)]).
    assert (Nr : isnan vr = false) by (destruct Hr as [[-> _]|(H & _)]; [reflexivity|apply (fltb_nonnan _ _ H)]).
    destruct (fltb vl vr) eqn:E.
    - destruct Hl as [[-> _]|(H & I & M)]; [destruct vr; discriminate|]. right. split; [exact H|].
      split; [apply in_sel in I; apply in_sel; split; [apply I|reflexivity]|].
      intros r x Hi. destruct (Hcase r x Hi) as [Hi'|Hi']; [eapply M; exact Hi'|].
      apply (fltb_false_trans x vr); [exact Nr|eapply Hr'; exact Hi'|]. apply fltb_asym, E.
    - destruct Hr as [[-> _]|(H & I & M)].
      + left. split; [reflexivity|]. intros r x Hi. destruct (Hcase r x Hi) as [Hi'|Hi']; [|eapply Hr'; exact Hi'].
        apply (fltb_false_trans x vl); [exact Nl|eapply Hl'; exact Hi'|exact E].
      + right. split; [exact H|]. split; [apply in_sel in I; apply in_sel; split; [apply I|reflexivity]|].
        intros r x Hi. destruct (Hcase r x Hi) as [Hi'|Hi']; [|eapply M; exact Hi'].
        apply (fltb_false_trans x vl); [exact Nl|eapply Hl'; exact Hi'|exact E].
  Qed.

  (** An entry of the best of more cells is not larger. *)
  Lemma is_best_mono cells cells' v i v' i' : (forall r x, In (r, x) cells -> In (r, x) cells') ->
    is_best cells v i -> is_best cells' v' i' -> fltb v v' = false.
  Proof.
    intros H Hb Hb'. destruct Hb as [[-> _]|(H1 & H2 & _)]; [destruct v'; reflexivity|].
    destruct Hb' as [[-> M]|(_ & _ & M)]; eapply M; apply H; exact H2.
  Qed.
End PProfile.

(** * PValmod: the complete calculation of the motifs and lower bounds of one length *)
From Coq Require Import QArith Reals Lra Sorted Permutation.
From Verif Require Import Np NpFacts MRing PRing MUtil MArith MStats MCache MZnorm MOstinato MValmod SReal SCalc SGen SValmod PArith PStats PCache PGenRun PSort PZdist PZgeo PZnorm POstinato POstinatoAny PValmodLb.
Set Implicit Arguments.
Open Scope nat_scope.

Definition zero_dec (x : R) : {x = 0%R} + {x <> 0%R} := Req_EM_T x 0.
Definition apartb (buffer i j : nat) : bool := (i + buffer <? j) || (j + buffer <? i).
Lemma apartb_spec buffer i j : apartb buffer i j = true <-> apart buffer i j.
Proof. unfold apartb, apart. rewrite orb_true_iff, !Nat.ltb_lt. tauto. Qed.
Lemma apartb_false buffer i j : apartb buffer i j = false <-> ~ apart buffer i j.
Proof. rewrite <- apartb_spec, not_true_iff_false. tauto. Qed.
Lemma apart_sym buffer i j : apart buffer i j -> apart buffer j i.
Proof. unfold apart. tauto. Qed.

(** ** One column, masked *)
Lemma mask_nth (f : nat -> num R) n c buffer i :
  nth_error (mask_trivial (map f (seq 0 n)) c buffer) i = if i <? n then Some (if apartb buffer i c then f i else PInf) else None.
Proof.
  unfold mask_trivial. rewrite nth_error_fill_slice, nth_error_map, nth_error_seq, map_length, seq_length. cbn [Nat.add].
  destruct (Nat.ltb_spec i n) as [Hi|Hi]; [|rewrite andb_false_r; reflexivity]. rewrite andb_true_r. cbn [option_map].
  unfold apartb. destruct (Nat.leb_spec (c - buffer) i), (Nat.ltb_spec i (c + buffer + 1)), (Nat.ltb_spec (i + buffer) c), (Nat.ltb_spec (c + buffer) i); cbn [andb orb]; try reflexivity; lia.
Qed.
Lemma mask_eq (f : nat -> num R) n c buffer :
  mask_trivial (map f (seq 0 n)) c buffer = map (fun i => if apartb buffer i c then f i else PInf) (seq 0 n).
Proof.
  apply nth_error_ext. intro i. rewrite mask_nth, nth_error_map, nth_error_seq. cbn [Nat.add]. destruct (i <? n); reflexivity.
Qed.

(** The smallest entry of a masked column *)
Lemma masked_min (f : nat -> R) n c buffer : 0 < n ->
  let l := mask_trivial (map (fun i => Fin (f i)) (seq 0 n)) c buffer in
  (amin l = Ok PInf /\ forall i, i < n -> ~ apart buffer i c) \/
  (exists i, amin l = Ok (Fin (f i)) /\ argmin l = Ok i /\ i < n /\ apart buffer i c /\ forall j, j < n -> apart buffer j c -> (f i <= f j)%R).
Proof.
  intros Hn l. assert (Nl : l <> []) by (intro E; apply (f_equal (@length _)) in E; unfold l in E; rewrite mask_eq, map_length, seq_length in E; simpl in E; lia).
  assert (NN : no_nan l). { intros x Hx. unfold l in Hx. rewrite mask_eq in Hx. apply in_map_iff in Hx. destruct Hx as (i & <- & _). destruct (apartb buffer i c); reflexivity. }
  destruct (amin_argmin Nl NN) as (i & v & E1 & E2 & E3 & E4 & _). pose proof E3 as Ei. unfold l in Ei. rewrite mask_nth in Ei.
  destruct (Nat.ltb_spec i n) as [Hi|]; [|discriminate]. injection Ei as Ev. 
  assert (Hmin : forall j, j < n -> apart buffer j c -> fltb (Fin (f j)) v = false).
  { intros j Hj Ha. apply (E4 j). unfold l. rewrite mask_nth. apply apartb_spec in Ha. rewrite Ha. destruct (Nat.ltb_spec j n); [reflexivity|lia]. }
  destruct (apartb buffer i c) eqn:Ea; subst v.
  - right. exists i. apply apartb_spec in Ea. split; [exact E2|]. split; [exact E1|]. split; [exact Hi|]. split; [exact Ea|].
    intros j Hj Ha. specialize (Hmin j Hj Ha). cbn [fltb nltb NumR] in Hmin. apply Rltb_false in Hmin. exact Hmin.
  - left. split; [exact E2|]. intros j Hj Ha. specialize (Hmin j Hj Ha). discriminate.
Qed.

(** ** The best pair so far, over the pairs in [P] *)
Section Best.
  Variables (D : nat -> nat -> R) (n buffer : nat).
  Definition binv (P : nat -> nat -> Prop) (b : @best R) : Prop :=
    (b = (PInf, None) /\ forall i j, ~ P i j) \/
    (exists i j, b = (Fin (D i j), Some (i, j)) /\ i < n /\ j < n /\ apart buffer i j /\ forall i' j', P i' j' -> (D i j <= D i' j')%R).
  Lemma binv_weak (P P' : nat -> nat -> Prop) b : (forall i j, P' i j -> P i j) -> binv P b -> binv P' b.
  Proof.
    intros H [[-> H1]|(i & j & -> & H1 & H2 & H3 & H4)]; [left|right].
    - split; [reflexivity|]. intros i j Hp. exact (H1 i j (H i j Hp)).
    - exists i, j. repeat (split; [assumption || reflexivity|]). intros i' j' Hp. apply H4, H, Hp.
  Qed.
  Lemma binv_top P b : binv P b -> (forall i j, i < n -> j < n -> apart buffer i j -> P i j) -> top_motif D n buffer (snd b).
  Proof.
    intros [[-> H1]|(i & j & -> & H1 & H2 & H3 & H4)] H; cbn [snd top_motif]; [|auto 7].
    intros i j Hi Hj Ha. exact (H1 i j (H i j Hi Hj Ha)).
  Qed.
  Lemma binv_take P b i j : binv P b -> i < n -> j < n -> apart buffer i j ->
    binv (fun i' j' => P i' j' \/ (D i j <= D i' j')%R) (if fltb (Fin (D i j)) (fst b) then (Fin (D i j), Some (i, j)) else b).
  Proof.
    intros Hb Hi Hj Ha. destruct (fltb (Fin (D i j)) (fst b)) eqn:E.
    - right. exists i, j. repeat (split; [auto|]). intros i' j' [Hp|Hp]; [|exact Hp].
      destruct Hb as [[-> H1]|(i0 & j0 & -> & H1 & H2 & H3 & H4)]; [destruct (H1 _ _ Hp)|]. cbn [fst fltb nltb NumR] in E. apply Rltb_true in E.
      specialize (H4 _ _ Hp). lra.
    - destruct Hb as [[-> H1]|(i0 & j0 & -> & H1 & H2 & H3 & H4)]; [discriminate|]. right. exists i0, j0. repeat (split; [auto|]).
      cbn [fst fltb nltb NumR] in E. apply Rltb_false in E. intros i' j' [Hp|Hp]; [auto|lra].
  Qed.
End Best.

(** ** The generator of a self-join *)
Section Length.
  Variables (mem : nat -> num R) (memb : nat -> bool) (noise : R).
  Variable X : list R.
  Variable m : nat.
  Hypothesis Hm : 0 < m.
  Hypothesis HX : m <= length X.
  Hypothesis Hnoise : (0 <= noise)%R.
  Notation n := (length X + 1 - m).
  Notation w := (sub m X).
  Definition D (i j : nat) : R := zdist noise (sub m X i) (sub m X j).

  Definition vready (g : @zn R) : Prop := exists u last, ZInv noise m (length X) (length X) true true u X X last g.

  Lemma w_len i : i < n -> length (w i) = m.
  Proof. clear - Hm. intro H. rewrite length_sub. lia. Qed.
  Lemma D_sym i j : i < n -> j < n -> D i j = D j i.
  Proof. intros Hi Hj. unfold D. apply zdist_sym. rewrite !w_len by assumption. reflexivity. Qed.
  Lemma D_nonneg i j : (0 <= D i j)%R.
  Proof. clear. unfold D. rewrite zdist_clip. apply clip12_nonneg. Qed.

  Lemma vready_prepare : exists g, zn_prepare mem memb (Fin noise) 2 m (fin X) None = Ok g /\ vready g.
  Proof.
    destruct (@zn_batch_state mem memb noise 2 m X None Hm HX HX ltac:(discriminate) Hnoise) as (g & E & I). exists g. split; [exact E|].
    unfold state_after in I. cbn [self_of query_or loaded app] in I. unfold loaded, ghost_of, ghost_step, wQ, wS, s_points in I. cbn [fold_left flat_map gh_exact gh_used gh_n gh_last andb orb app] in I.
    rewrite app_nil_r, (lastn_all X) in I by lia. eexists. eexists. exact I.
  Qed.

  Lemma vready_column g c : vready g -> c < n -> exists g', zn_calc_column mem g c = Ok (g', map (fun i => Fin (D i c)) (seq 0 n)) /\ vready g' /\
    ch_vals (zn_c g') = map (fun i => Fin (dotp (w i) (w c))) (seq 0 n).
  Proof.
    clear Hnoise. intros (u & last & I) Hc. assert (HWq : true = false -> m <= length X) by discriminate.
    destruct (@ZInv_col mem memb noise m (length X) (length X) true Hm HWq true u X X last g c I) as (g' & E & I'); [split; lia|left; reflexivity|].
    exists g'. split; [exact E|]. split; [eexists; eexists; exact I'|].
    assert (Hp : ch_prev (zn_c g') = Some (Z.of_nat c)).
    { revert E. unfold zn_calc_column. destruct (length (rb_view (ch_query (zn_c g))) + 1 <? ch_m (zn_c g)); [discriminate|].
      destruct (cache_col dot_products fmul mem (zn_c g) c) as [r|] eqn:Er; [|discriminate]. cbn [bind].
      destruct (getitem (rb_view (zs_mu (zn_s g))) c); [|discriminate]. cbn [bind]. destruct (getitem (rb_view (zs_std (zn_s g))) c); [|discriminate]. cbn [bind].
      destruct (getitem (rb_view (zs_nz (zn_s g))) c); [|discriminate]. cbn [bind]. match goal with |- bind ?e _ = _ -> _ => destruct e; [|discriminate] end. cbn [bind].
      destruct (length (snd r) =? _); [|discriminate]. intro E. injection E as <- _. cbn [zn_c]. revert Er. unfold cache_col. clear.
      match goal with |- bind ?e _ = _ -> _ => destruct e as [[[first backlog] v]|]; [|discriminate] end. cbn [bind]. intro E. injection E as <-. reflexivity. }
    destruct (ci_prev (zi_c I') Hp) as (gap & _ & Hg & Hv). specialize (Hg eq_refl). subst gap.
    destruct (Hv ltac:(lia)) as (vs & E1 & _ & _ & L & N). rewrite E1. rewrite Nat2Z.id, Nat.add_0_r in N.
    apply nth_error_ext. intro i. rewrite !nth_error_map, nth_error_seq. cbn [Nat.add]. destruct (Nat.ltb_spec i n) as [Hi|Hi].
    - rewrite (nth_error_nth' vs 0%R) by lia. cbn [option_map]. specialize (N i ltac:(lia)). unfold EZ in N. do 2 f_equal. unfold dotp. lra.
    - rewrite (proj2 (nth_error_None vs i)) by lia. reflexivity.
  Qed.
  Lemma vready_single g q c : vready g -> q < n -> c < n -> zn_calc_single g q c (Some (Fin (dotp (w q) (w c)))) = Ok (Fin (D q c)).
  Proof.
    clear Hnoise. intros (u & last & I) Hq Hc. assert (HWq : true = false -> m <= length X) by discriminate.
    apply (@ZInv_single mem memb noise m (length X) (length X) true Hm HWq true u X X last g); auto; lia.
  Qed.
  Lemma vready_views g : vready g -> ch_m (zn_c g) = m /\ rb_view (zs_mu (zn_s g)) = map (fun i => Fin (mean (w i))) (seq 0 n) /\ rb_view (zs_std (zn_s g)) = map (fun i => Fin (std (w i))) (seq 0 n).
  Proof.
    clear - Hm. intros (u & last & I). destruct (zi_series I) as (V1 & V2 & _). split; [exact (ci_m (zi_c I))|].
    rewrite V1, V2. unfold windowed. rewrite !map_map. auto.
  Qed.

  Variable buffer : nat.

  (** *** One column: distances *)
  Lemma try_column_ok g c b P : vready g -> c < n -> binv D n buffer P b ->
    exists g' b', try_column mem g c buffer b = Ok (g', b') /\ vready g' /\ ch_vals (zn_c g') = map (fun i => Fin (dotp (w i) (w c))) (seq 0 n) /\
      fleb (fst b') (fst b) = true /\ binv D n buffer (fun i j => P i j \/ (j = c /\ i < n /\ apart buffer i c)) b'.
  Proof.
    clear Hnoise. intros Hg Hc Hb. destruct (vready_column Hg Hc) as (g' & E & Hg' & Ev). unfold try_column. rewrite E. cbn [bind fst snd].
    destruct (@masked_min (fun i => D i c) n c buffer ltac:(lia)) as [[E1 H1]|(i & E1 & E2 & Hi & Ha & Hmin)]; rewrite E1; cbn [bind].
    - assert (F : fltb PInf (fst b) = false) by (destruct (fst b); reflexivity). rewrite F. exists g', b. split; [reflexivity|]. split; [exact Hg'|]. split; [exact Ev|].
      split; [destruct Hb as [[-> _]|(i0 & j0 & -> & _)]; cbn [fst fleb fltb nltb NumR negb]; [reflexivity|rewrite (proj2 (Rltb_false _ _)) by apply Rle_refl; reflexivity]|].
      eapply binv_weak; [|exact Hb]. intros i j [Hp|(-> & Hi & Ha)]; [exact Hp|]. destruct (H1 i Hi Ha).
    - rewrite E2. cbn [bind]. pose proof (binv_take Hb Hi Hc Ha) as HT. exists g', (if fltb (Fin (D i c)) (fst b) then (Fin (D i c), Some (i, c)) else b).
      split; [destruct (fltb (Fin (D i c)) (fst b)); reflexivity|]. split; [exact Hg'|]. split; [exact Ev|]. split.
      + destruct (fltb (Fin (D i c)) (fst b)) eqn:EF; cbn [fst].
        * destruct (fst b) as [| |v|]; try discriminate; [|reflexivity]. cbn [fltb nltb NumR fleb] in *. apply Rltb_true in EF. rewrite (proj2 (Rltb_false _ _)) by lra. reflexivity.
        * destruct Hb as [[-> _]|(i0 & j0 & -> & _)]; cbn [fst fleb fltb nltb NumR negb]; [reflexivity|rewrite (proj2 (Rltb_false _ _)) by apply Rle_refl; reflexivity].
      + eapply binv_weak; [|exact HT]. intros i' j' [Hp|(-> & Hi' & Ha')]; [left; exact Hp|right; apply Hmin; assumption].
  Qed.

  (** *** One column: lower bounds *)
  Definition key (c q : nat) : num R := if apartb buffer q c then if zero_dec (std (w q)) then NaN else Fin (bound (w q) (w c)) else PInf.

  Lemma clip01_fin a : clip01 (Fin a) = Fin (Rmin (Rmax a 0) 1).
  Proof.
    clear. unfold clip01. change fzero with (Fin 0%R). rewrite fmaximum_fin. unfold fminimum. change (fofZ 1) with (Fin 1%R). cbn [isnan fltb nltb NumR].
    unfold Rmin. destruct (Rltb_spec 1 (Rmax a 0)); destruct (Rle_dec (Rmax a 0) 1); auto; lra.
  Qed.
  Lemma flat_dot x y : length x = length y -> 0 < length x -> std x = 0%R -> (dotp x y / INR (length x) - mean x * mean y = 0)%R.
  Proof.
    clear. intros L H E. assert (Hn : (0 < INR (length x))%R) by (apply (lt_INR 0); lia).
    assert (Ed : (dotp x y - INR (length x) * mean x * mean y = 0)%R); [|unfold Rdiv; apply (Rmult_eq_reg_l (INR (length x))); [|lra]; transitivity (dotp x y - INR (length x) * mean x * mean y)%R; [field; lra|lra]].
    rewrite <- (rsum_dev_prod x y L H).
    assert (Z : forall a, In a x -> (a - mean x = 0)%R).
    { intros a Ha. pose proof (rsum_dev_sq x H) as Hs. rewrite E in Hs. replace (INR (length x) * (0 * 0))%R with 0%R in Hs by lra.
      assert (NN : forall l b, (forall v, In v l -> (0 <= v)%R) -> rsum l = 0%R -> In b l -> b = 0%R).
      { clear. induction l as [|v l IH]; [intros b _ _ []|]; intros b Hl Hs [<-|Hb]; rewrite rsum_cons in Hs; pose proof (Hl v (or_introl eq_refl)); assert (0 <= rsum l)%R by (apply rsum_nonneg; intros; apply Hl; right; assumption); [lra|].
        apply IH; [intros; apply Hl; right; assumption|lra|exact Hb]. }
      apply Rsqr_0_uniq. unfold Rsqr. apply (NN _ ((a - mean x) * (a - mean x))%R) in Hs; [exact Hs| |apply in_map_iff; exists a; auto].
      intros v Hv. apply in_map_iff in Hv. destruct Hv as (a' & <- & _). apply Rle_0_sqr. }
    rewrite (rsum_map_ext _ (fun _ => 0%R)); [rewrite rsum_map_const; lra|]. intros [a b] Hp. cbn [fst snd]. apply in_combine_l in Hp. rewrite (Z a Hp). lra.
  Qed.

  Lemma bounds_ok c : c < n -> (std (w c) <> 0)%R ->
    lower_bounds m (map (fun i => Fin (dotp (w i) (w c))) (seq 0 n)) (map (fun i => Fin (mean (w i))) (seq 0 n)) (map (fun i => Fin (std (w i))) (seq 0 n))
      (Fin (mean (w c))) (Fin (std (w c))) c buffer = Ok (map (key c) (seq 0 n)).
  Proof.
    clear Hnoise. intros Hc Hs. unfold lower_bounds. rewrite !map_map. rewrite bop_eq by (rewrite !map_length; reflexivity). cbn [bind].
    rewrite bop_eq; [|rewrite length_zip_with, !map_length; lia]. cbn [bind]. apply f_equal.
    assert (Z : forall (T : Type) (h1 h2 h3 : nat -> num R) (l : list nat), zip_with fdiv (zip_with fsub (map h1 l) (map h2 l)) (map h3 l) = map (fun i => fdiv (fsub (h1 i) (h2 i)) (h3 i)) l).
    { clear. intros _ h1 h2 h3 l. induction l as [|a l IH]; [reflexivity|]. cbn [map zip_with]. f_equal. exact IH. }
    rewrite (Z unit), map_map, mask_eq. apply map_ext_in. intros i Hi%in_seq. unfold key. destruct (apartb buffer i c); [|reflexivity].
    rewrite fofZ_m by exact Hm. cbn [fmul nmul NumR]. assert (Hn : (0 < INR m)%R) by (apply (lt_INR 0); lia). rewrite fdiv_fin by exact Hn. cbn [fsub nsub NumR].
    assert (Li : length (w i) = m) by (apply w_len; lia). assert (Lc : length (w c) = m) by (apply w_len; lia).
    pose proof (std_nonneg (w c)) as Nc. pose proof (std_nonneg (w i)) as Ni. destruct (zero_dec (std (w i))) as [Z0|Z0].
    - pose proof (@flat_dot (w i) (w c) ltac:(lia) ltac:(lia) Z0) as F. rewrite Li in F. rewrite F, Z0. replace (0 * std (w c))%R with 0%R by lra.
      unfold fdiv. cbn [nltb nzero NumR]. rewrite (proj2 (Rltb_false 0 0)) by lra. reflexivity.
    - rewrite fdiv_fin by (apply Rmult_lt_0_compat; lra). rewrite clip01_fin. unfold fsquare. cbn [fmul nmul NumR]. change (fofZ 1) with (Fin 1%R). cbn [fsub nsub fmul nmul NumR froot]. unfold bound. rewrite Li.
      replace ((dotp (w i) (w c) / INR m - mean (w i) * mean (w c)) / (std (w i) * std (w c)))%R with (corr (w i) (w c)) by (unfold corr; rewrite Li; reflexivity).
      fold (corr01 (w i) (w c)). set (r := corr01 (w i) (w c)). assert (Hr : (0 <= r <= 1)%R). { unfold r, corr01. split; [apply Rmin_glb; [apply Rmax_r|lra]|apply Rmin_r]. }
      unfold fsqrt. cbn [nltb nzero nsqrt NumR]. rewrite (proj2 (Rltb_false _ _)); [reflexivity|]. apply Rmult_le_pos; [lra|]. nra.
  Qed.

  (** *** One column: the entries *)
  Variable argsort : list (num R) -> list nat.
  Hypothesis Hsort : sorts argsort.

  Lemma nth_key c i : i < n -> nth i (map (key c) (seq 0 n)) NaN = key c i.
  Proof. clear. intro H. apply nth_error_nth. rewrite nth_error_map, nth_error_seq. destruct (Nat.ltb_spec i n); [reflexivity|lia]. Qed.
  Lemma getitem_map_seq {T} (f : nat -> T) k i : i < k -> getitem (map f (seq 0 k)) i = Ok (f i).
  Proof. clear. intro H. unfold getitem. rewrite nth_error_map, nth_error_seq. destruct (Nat.ltb_spec i k); [reflexivity|lia]. Qed.
  Lemma mapM_map {S T} (f : S -> res T) (h : S -> T) l : (forall x, In x l -> f x = Ok (h x)) -> mapM f l = Ok (map h l).
  Proof. clear. induction l as [|x l IH]; intro H; [reflexivity|]. cbn [mapM map]. rewrite (H x (or_introl eq_refl)). cbn [bind]. rewrite IH by (intros; apply H; right; assumption). reflexivity. Qed.
  Lemma pyget_last {T} (l : list T) : l <> [] -> exists x, pyget l (-1) = Ok x /\ In x l.
  Proof.
    clear. intro H. unfold pyget. assert (L : 0 < length l) by (destruct l; [congruence|simpl; lia]).
    destruct (Z.ltb_spec (-1) (- Z.of_nat (length l))); [lia|]. destruct (Z.leb_spec (Z.of_nat (length l)) (-1)); [lia|]. cbn [orb].
    change (-1 <? 0)%Z with true. cbv iota. replace (Z.to_nat (-1 + Z.of_nat (length l))) with (length l - 1) by lia.
    unfold getitem. destruct (nth_error l (length l - 1)) as [x|] eqn:E; [exists x; split; [reflexivity|eapply nth_error_In; exact E]|]. apply nth_error_None in E. lia.
  Qed.
  Lemma search_rest (l : list (num R)) : StronglySorted (fun x y => sort_le x y = true) l -> forall x, In x (skipn (searchsorted l PInf) l) -> fltb x PInf = false.
  Proof.
    clear. induction 1 as [|y l Hl IH Hy]; cbn [searchsorted]; [intros x []|]. destruct (fltb y PInf) eqn:E; cbn [skipn]; [exact IH|].
    intros x [<-|Hx]; [exact E|]. rewrite Forall_forall in Hy. specialize (Hy x Hx). destruct y, x; cbn in E, Hy; try discriminate; reflexivity.
  Qed.

  Definition fresh (c q : nat) : lbentry := mkLb q c (key c q) (Fin (dotp (w q) (w c))).
  Lemma lb_entries_ok size c : c < n -> 0 < size ->
    exists ps rest, lb_entries argsort size c (map (key c) (seq 0 n)) (map (fun i => Fin (dotp (w i) (w c))) (seq 0 n)) = Ok (map (fresh c) ps) /\
      Permutation (ps ++ rest) (seq 0 n) /\ (forall a b, In a ps -> In b rest -> sort_le (key c a) (key c b) = true) /\
      length ps <= size /\ (length ps = size \/ forall q, In q rest -> fltb (key c q) PInf = false).
  Proof.
    clear Hnoise HX. intros Hc Hs. set (lbs := map (key c) (seq 0 n)). destruct (Hsort lbs) as [HP HS]. set (order := argsort lbs) in *.
    assert (Ll : length lbs = n) by (unfold lbs; rewrite map_length, seq_length; reflexivity). rewrite Ll in HP.
    assert (Lo : length order = n) by (rewrite (Permutation_length HP), seq_length; reflexivity).
    assert (Hin : forall q, In q order -> q < n) by (intros q Hq; apply (Permutation_in _ HP), in_seq in Hq; lia).
    assert (HS' : StronglySorted (fun i j => sort_le (key c i) (key c j) = true) order).
    { revert Hin HS. clear - HP. generalize order. intro l. induction l as [|x l IH]; intros Hin HS; [constructor|]. inversion HS; subst. constructor; [apply IH; [intros; apply Hin; right; assumption|assumption]|].
      rewrite Forall_forall in *. intros y Hy. specialize (H2 y Hy). unfold lbs in H2. rewrite !nth_key in H2 by (apply Hin; auto using in_eq, in_cons). exact H2. }
    assert (Hnth : forall i, i < n -> getitem lbs i = Ok (key c i)) by (intros i Hi; apply getitem_map_seq; exact Hi).
    unfold lb_entries. fold order. set (closest := firstn size order).
    assert (Hsplit : closest ++ skipn size order = order) by apply firstn_skipn.
    assert (Ncl : closest <> []) by (unfold closest; destruct order as [|x o]; [simpl in Lo; lia|]; destruct size; [lia|discriminate]).
    assert (Hcl : forall q, In q closest -> q < n) by (intros q Hq; apply Hin; rewrite <- Hsplit; apply in_or_app; left; exact Hq).
    assert (Lc : length closest = Nat.min size n) by (unfold closest; rewrite firstn_length, Lo; reflexivity).
    destruct (pyget_last Ncl) as (last & El & Il). rewrite El. cbn [bind]. rewrite (Hnth last (Hcl last Il)). cbn [bind].
    assert (Hout : forall ps, (forall q, In q ps -> q < n) ->
      mapM (fun i => do b <- getitem lbs i; do d <- getitem (map (fun i => Fin (dotp (w i) (w c))) (seq 0 n)) i; Ok (mkLb i c b d)) ps = Ok (map (fresh c) ps)).
    { intros ps Hps. apply mapM_map. intros q Hq. rewrite (Hnth q (Hps q Hq)). cbn [bind]. rewrite getitem_map_seq by (apply Hps; exact Hq). reflexivity. }
    assert (Hpre : forall ps rest, ps ++ rest = order -> Permutation (ps ++ rest) (seq 0 n) /\ (forall a b, In a ps -> In b rest -> sort_le (key c a) (key c b) = true)).
    { intros ps rest <-. split; [exact HP|]. exact (proj2 (proj2 (StronglySorted_app_inv _ _ HS'))). }
    destruct (feqb (key c last) PInf) eqn:EI.
    - rewrite (@mapM_map _ _ (getitem lbs) (key c) closest) by (intros; apply Hnth, Hcl; assumption). cbn [bind].
      set (k := searchsorted (map (key c) closest) PInf).
      assert (Hsplit2 : firstn k closest ++ (skipn k closest ++ skipn size order) = order) by (rewrite app_assoc, firstn_skipn; exact Hsplit).
      exists (firstn k closest), (skipn k closest ++ skipn size order). rewrite Hout; [|intros q Hq; apply Hcl; rewrite <- (firstn_skipn k closest); apply in_or_app; left; exact Hq].
      split; [reflexivity|]. destruct (Hpre _ _ Hsplit2) as [P1 P2]. split; [exact P1|]. split; [exact P2|]. split; [rewrite firstn_length; lia|]. right.
      assert (HSc : StronglySorted (fun i j => sort_le (key c i) (key c j) = true) closest) by (rewrite <- Hsplit in HS'; exact (proj1 (StronglySorted_app_inv _ _ HS'))).
      intros q Hq. apply in_app_or in Hq. destruct Hq as [Hq|Hq].
      + apply search_rest with (l := map (key c) closest); [|fold k; rewrite skipn_map; apply in_map; exact Hq].
        revert HSc. generalize closest. clear. intro l. induction 1 as [|x l H IH Hx]; [constructor|]. cbn [map]. constructor; [exact IH|]. rewrite Forall_forall in *. intros y Hy. apply in_map_iff in Hy. destruct Hy as (z & <- & Hz). exact (Hx z Hz).
      + destruct (Hpre _ _ Hsplit) as [_ P3]. specialize (P3 _ _ Il Hq). destruct (key c last); try discriminate. destruct (key c q); cbn in P3; try discriminate; reflexivity.
    - cbn [bind]. exists closest, (skipn size order). rewrite Hout by exact Hcl. split; [reflexivity|]. destruct (Hpre _ _ Hsplit) as [P1 P2]. split; [exact P1|]. split; [exact P2|]. split; [lia|].
      destruct (Nat.le_gt_cases size n) as [Hsz|Hsz]; [left; lia|right]. rewrite skipn_all2 by lia. intros q [].
  Qed.
End Length.

(** ** The entries of column [c] for length [m], selected at length [m0] *)
Definition entry_ok (X : list R) (buffer m0 m c : nat) (e : @lbentry R) (q : nat) : Prop :=
  lb_q e = q /\ lb_s e = c /\ lb_base e = key X m0 buffer c q /\
  (apart buffer q c -> q + m <= length X -> c + m <= length X -> lb_dot e = Fin (dotp (sub m X q) (sub m X c))).
Definition column_ok (X : list R) (buffer m0 m c : nat) (l : list (@lbentry R)) : Prop :=
  (std (sub m0 X c) = 0%R -> l = []) /\
  exists ps rest, Permutation (ps ++ rest) (seq 0 (length X + 1 - m0)) /\
    (forall a b, In a ps -> In b rest -> sort_le (key X m0 buffer c a) (key X m0 buffer c b) = true) /\
    Forall2 (entry_ok X buffer m0 m c) l ps.
Definition lists_ok (X : list R) (buffer m0 m : nat) (lists : list (list (@lbentry R))) : Prop :=
  forall c, c + m <= length X -> exists l, nth_error lists c = Some l /\ column_ok X buffer m0 m c l.
(** Enough entries *)
Definition enough (X : list R) (buffer size m c : nat) (l : list (@lbentry R)) : Prop :=
  length l <= size /\ (std (sub m X c) = 0%R \/ length l = size \/
    forall q, q + m <= length X -> apart buffer q c -> std (sub m X q) <> 0%R -> exists e, In e l /\ lb_q e = q).

Section Full.
  Variables (mem : nat -> num R) (memb : nat -> bool) (noise : R).
  Variable X : list R.
  Variable m : nat.
  Hypothesis Hm : 0 < m.
  Hypothesis HX : m <= length X.
  Hypothesis Hnoise : (0 <= noise)%R.
  Variable buffer : nat.
  Variable argsort : list (num R) -> list nat.
  Hypothesis Hsort : sorts argsort.
  Notation n := (length X + 1 - m).
  Notation w := (sub m X).

  Lemma lb_list_ok g size c : vready noise X m g -> c < n -> 0 < size -> ch_vals (zn_c g) = map (fun i => Fin (dotp (w i) (w c))) (seq 0 n) ->
    exists l, lb_list argsort g size c buffer = Ok l /\ column_ok X buffer m m c l /\ enough X buffer size m c l.
  Proof.
    clear - mem memb Hm HX Hsort. intros Hg Hc Hs Ev. destruct (vready_views Hg) as (V0 & V1 & V2). unfold lb_list. rewrite V0, V1, V2, Ev.
    rewrite !getitem_map_seq by exact Hc. cbn [bind].
    assert (E0 : feqb (Fin (std (w c))) fzero = if zero_dec (std (w c)) then true else false).
    { unfold feqb, fzero. cbn [fleb fltb nltb nzero NumR]. destruct (zero_dec (std (w c))) as [->|Hz]; [rewrite (proj2 (Rltb_false 0 0)) by lra; reflexivity|].
      destruct (Rltb_spec (std (w c)) 0), (Rltb_spec 0 (std (w c))); cbn [negb andb]; auto; lra. }
    rewrite E0. destruct (zero_dec (std (w c))) as [Hz|Hz].
    - exists []. split; [reflexivity|]. split; [|split; [simpl; lia|left; exact Hz]]. split; [reflexivity|]. exists [], (seq 0 n). split; [reflexivity|]. split; [intros a b []|constructor].
    - cbn [bind]. rewrite (@bounds_ok mem memb X m Hm HX buffer c Hc Hz). cbn [bind]. destruct (@lb_entries_ok mem memb X m Hm buffer argsort Hsort size c Hc Hs) as (ps & rest & E & P1 & P2 & P3 & P4).
      rewrite E. exists (map (fresh X m buffer c) ps). split; [reflexivity|]. split.
      + split; [congruence|]. exists ps, rest. split; [exact P1|]. split; [exact P2|]. clear. induction ps as [|q ps IH]; constructor; [|exact IH].
        split; [reflexivity|]. split; [reflexivity|]. split; reflexivity.
      + split; [rewrite map_length; exact P3|]. right. rewrite map_length. destruct P4 as [P4|P4]; [left; exact P4|right]. intros q Hq Ha Hs0.
        assert (Iq : In q (ps ++ rest)) by (apply (Permutation_in _ (Permutation_sym P1)), in_seq; lia). apply in_app_or in Iq. destruct Iq as [Iq|Iq].
        * exists (fresh X m buffer c q). split; [apply in_map; exact Iq|reflexivity].
        * specialize (P4 q Iq). unfold key in P4. apply apartb_spec in Ha. rewrite Ha in P4. destruct (zero_dec (std (sub m X q))); [contradiction|discriminate].
  Qed.

  Lemma full_ok g size : vready noise X m g -> 0 < size ->
    exists lists r, full_iteration mem argsort g size buffer = Ok (lists, r) /\ top_motif (D noise X m) n buffer r /\
      length lists = n /\ lists_ok X buffer m m lists /\ (forall c l, nth_error lists c = Some l -> enough X buffer size m c l).
  Proof.
    clear - mem memb Hm HX Hsort. intros Hg Hs. unfold full_iteration. destruct (vready_views Hg) as (_ & V1 & _). rewrite V1, map_length, seq_length.
    set (f := fun st c => _). assert (G : forall k, k <= n -> exists g' lists b, foldM f (seq 0 k) (g, [], (PInf, None)) = Ok (g', lists, b) /\ vready noise X m g' /\
      binv (D noise X m) n buffer (fun i j => j < k /\ i < n /\ apart buffer i j) b /\ length lists = k /\
      forall c l, nth_error lists c = Some l -> column_ok X buffer m m c l /\ enough X buffer size m c l).
    { induction k as [|k IH]; intro Hk.
      - exists g, [], (PInf, None). split; [reflexivity|]. split; [exact Hg|]. split; [|split; [reflexivity|intros [|c] l; discriminate]]. left. split; [reflexivity|]. intros i j (Hj & _). lia.
      - destruct (IH ltac:(lia)) as (g1 & lists & b & E & Hg1 & Hb & HL & Hl). rewrite seq_S, foldM_app, E. cbn [bind foldM Nat.add].
        unfold f at 1. destruct (@try_column_ok mem memb noise X m Hm HX buffer g1 k b _ Hg1 ltac:(lia) Hb) as (g2 & b2 & E2 & Hg2 & Ev & _ & Hb2). rewrite E2. cbn [bind fst snd].
        destruct (@lb_list_ok g2 size k Hg2 ltac:(lia) Hs Ev) as (l & El & Ok1 & Ok2). rewrite El. cbn [bind].
        exists g2, (lists ++ [l]), b2. split; [reflexivity|]. split; [exact Hg2|]. split; [|split].
        + eapply binv_weak; [|exact Hb2]. intros i j (H1 & H2 & H3). destruct (Nat.eq_dec j k) as [->|Hn]; [right; auto|left; split; [lia|auto]].
        + rewrite app_length. simpl. lia.
        + intros c l' Hc. destruct (Nat.lt_ge_cases c k) as [Hck|Hck].
          * rewrite nth_error_app1 in Hc by lia. auto.
          * rewrite nth_error_app2 in Hc by lia. rewrite HL in Hc. destruct (c - k) as [|d] eqn:Ed; [|destruct d; discriminate]. injection Hc as <-. replace c with k by lia. auto. }
    destruct (G n (Nat.le_refl _)) as (g' & lists & b & E & _ & Hb & HL & Hl). rewrite E. cbn [bind]. exists lists, (snd b). split; [reflexivity|]. split; [|split; [exact HL|split]].
    - eapply binv_top; [exact Hb|]. intros i j Hi Hj Ha. cbv beta. split; [exact Hj|]. split; assumption.
    - intros c Hc. destruct (nth_error lists c) as [l|] eqn:El; [exists l; split; [reflexivity|apply (Hl c l El)]|]. apply nth_error_None in El. lia.
    - intros c l Hc. apply (Hl c l Hc).
  Qed.
End Full.

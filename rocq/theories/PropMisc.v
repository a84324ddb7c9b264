(** * PropMisc: C71 sliding minima and maxima, C72 affected subsequences, C74 size of the distance matrix, C75 item access of a RingBuffer *)
From Coq Require Import QArith Permutation.
From Verif Require Import Np NpFacts Mat MUtil MRing MCalc SRing SLog SCalc PRing PCalc PCalcRun MMisc Inst PropRing PropCalc.
Set Implicit Arguments.
Open Scope nat_scope.

(** ** C71 *)
Section Sliding.
  Context {A : Type} {NA : NumOps A} {OA : OrdLaws A}.
  Notation num := (Np.num A).

  (** [x] is the smallest number of [l]. *)
  Definition least (l : list num) (x : num) : Prop := In x l /\ forall y, In y l -> fleb x y = true.
  Definition greatest (l : list num) (x : num) : Prop := In x l /\ forall y, In y l -> fleb y x = true.

  Lemma best_spec (better : num -> num -> bool) (le : num -> num -> Prop) :
    (forall x b, isfinite x = true -> isfinite b = true -> if better x b then le x b else le b x) ->
    (forall x, isfinite x = true -> le x x) ->
    (forall x y z, isfinite x = true -> isfinite y = true -> isfinite z = true -> le x y -> le y z -> le x z) ->
    forall l b, forallb isfinite (b :: l) = true -> In (best_from better l b) (b :: l) /\ forall y, In y (b :: l) -> le (best_from better l b) y.
  Proof.
    intros H R Tr. induction l as [|x l IH]; intros b F; cbn [best_from].
    - cbn in F. rewrite andb_true_r in F. split; [left; reflexivity|]. intros y [<-|[]]. apply R, F.
    - cbn [forallb] in F. apply andb_true_iff in F. destruct F as [Fb F]. apply andb_true_iff in F. destruct F as [Fx F].
      assert (F' : forallb isfinite ((if better x b then x else b) :: l) = true) by (cbn [forallb]; rewrite F; destruct (better x b); [rewrite Fx|rewrite Fb]; reflexivity).
      destruct (IH _ F') as [I1 I2]. assert (Fr : isfinite (best_from better l (if better x b then x else b)) = true).
      { rewrite forallb_forall in F'. apply F', I1. }
      specialize (H x b Fx Fb). destruct (better x b).
      + split; [destruct I1 as [I1|I1]; [right; left; exact I1|right; right; exact I1]|]. intros y [<-|[<-|Hy]]; [|apply I2; left; reflexivity|apply I2; right; exact Hy].
        apply (Tr _ x _ Fr Fx Fb); [apply I2; left; reflexivity|exact H].
      + split; [destruct I1 as [I1|I1]; [left; exact I1|right; right; exact I1]|]. intros y [<-|[<-|Hy]]; [apply I2; left; reflexivity| |apply I2; right; exact Hy].
        apply (Tr _ b _ Fr Fb Fx); [apply I2; left; reflexivity|exact H].
  Qed.

  Lemma fin_le (x b : num) : isfinite x = true -> isfinite b = true -> if fltb x b then fleb x b = true else fleb b x = true.
  Proof.
    destruct x as [| |x|], b as [| |b|]; try discriminate. intros _ _. cbn. destruct (nltb x b) eqn:E; [|reflexivity].
    destruct (nltb b x) eqn:E2; [|reflexivity]. pose proof (@nltb_trans A NA OA x b x E E2) as N. rewrite nltb_irrefl in N. discriminate.
  Qed.
  Lemma fin_refl (x : num) : isfinite x = true -> fleb x x = true.
  Proof. destruct x as [| |x|]; try discriminate. intros _. cbn. rewrite nltb_irrefl. reflexivity. Qed.
  Lemma fin_trans (x y z : num) : isfinite x = true -> isfinite y = true -> isfinite z = true -> fleb x y = true -> fleb y z = true -> fleb x z = true.
  Proof.
    destruct x as [| |x|], y as [| |y|], z as [| |z|]; try discriminate. intros _ _ _. cbn. rewrite !negb_true_iff. intros H1 H2. destruct (nltb z x) eqn:E; [|reflexivity]. destruct (nltb x y) eqn:E3; [rewrite (@nltb_trans A NA OA z x y E E3) in H2; discriminate|]. rewrite (nltb_total x y E3 H1) in E. congruence.
  Qed.

  Lemma sliding_spec better (array : list num) (w : nat) out : 0 < w -> sliding better array (Z.of_nat w) = Ok out ->
    length out = length array + 1 - w /\
    forall i, i + w <= length array -> exists x win, firstn w (skipn i array) = x :: win /\ nth_error out i = Some (if forallb isfinite (x :: win) then best_from better win x else NaN).
  Proof.
    intros Hw E. unfold sliding in E. destruct (Z.of_nat w <? 0)%Z eqn:E0; [apply Z.ltb_lt in E0; lia|]. injection E as <-. rewrite Nat2Z.id. unfold slice_from.
    assert (LR : length (rolling better w array) = length array) by (unfold rolling; rewrite map_length, seq_length; reflexivity).
    assert (EN : norm_idx (length (rolling better w array)) (Z.of_nat w - 1) = Nat.min (length array) (w - 1)).
    { rewrite LR. unfold norm_idx. destruct (Z.of_nat w - 1 <? 0)%Z eqn:E; [apply Z.ltb_lt in E; lia|]. lia. }
    rewrite EN. split; [rewrite skipn_length, LR; lia|]. intros i Hi. rewrite nth_error_skipn. unfold rolling. rewrite nth_error_map, nth_error_seq.
    replace (Nat.min (length array) (w - 1) + i) with (w - 1 + i) by lia. destruct (w - 1 + i <? length array) eqn:E1; [|apply Nat.ltb_ge in E1; lia]. cbn [option_map Nat.add].
    destruct (w - 1 + i + 1 <? w) eqn:E2; [apply Nat.ltb_lt in E2; lia|]. replace (w - 1 + i + 1 - w) with i by lia.
    destruct (firstn w (skipn i array)) as [|x win] eqn:EW; [|exists x, win; split; reflexivity].
    apply (f_equal (@length num)) in EW. rewrite firstn_length, skipn_length in EW. cbn in EW. lia.
  Qed.

  (** The i-th result is the minimum (maximum) of the i-th window if its values are finite, otherwise NaN; there is one result per window. *)
  Theorem C71_sliding_partial : forall (array : list num) (w : nat), 0 < w ->
    exists mins maxs, sliding_min array (Z.of_nat w) = Ok mins /\ sliding_max array (Z.of_nat w) = Ok maxs /\
      length mins = length array + 1 - w /\ length maxs = length array + 1 - w /\
      forall i, i + w <= length array ->
        (Forall (fun x => isfinite x = true) (firstn w (skipn i array)) ->
          exists lo hi, nth_error mins i = Some lo /\ nth_error maxs i = Some hi /\ least (firstn w (skipn i array)) lo /\ greatest (firstn w (skipn i array)) hi) /\
        (Exists (fun x => isfinite x = false) (firstn w (skipn i array)) -> nth_error mins i = Some NaN /\ nth_error maxs i = Some NaN).
  Proof.
    intros array w Hw. assert (Ex : forall better, exists out, sliding better array (Z.of_nat w) = Ok out) by (intro better; unfold sliding; destruct (Z.of_nat w <? 0)%Z eqn:E; [apply Z.ltb_lt in E; lia|eauto]).
    destruct (Ex (fun x b => fltb x b)) as (mins & E1). destruct (Ex (fun x b => fltb b x)) as (maxs & E2). exists mins, maxs. split; [exact E1|]. split; [exact E2|].
    destruct (@sliding_spec _ array w mins Hw E1) as [L1 S1]. destruct (@sliding_spec _ array w maxs Hw E2) as [L2 S2]. split; [exact L1|]. split; [exact L2|]. intros i Hi.
    destruct (S1 i Hi) as (x & win & EW & N1). destruct (S2 i Hi) as (x' & win' & EW' & N2). rewrite EW in EW'. injection EW' as <- <-. rewrite EW. split; intro H.
    - assert (F : forallb isfinite (x :: win) = true) by (rewrite forallb_forall; rewrite Forall_forall in H; exact H). rewrite F in N1, N2. eexists _, _. split; [exact N1|]. split; [exact N2|]. split.
      + apply best_spec with (le := fun a b => fleb a b = true); [intros; apply fin_le; assumption|exact fin_refl|exact fin_trans|exact F].
      + apply best_spec with (le := fun a b => fleb b a = true); [intros a b Ha Hb; pose proof (fin_le b a Hb Ha) as Q; destruct (fltb b a); exact Q|exact fin_refl|intros a b c Ha Hb Hc Q1 Q2; exact (fin_trans c b a Hc Hb Ha Q2 Q1)|exact F].
    - assert (F : forallb isfinite (x :: win) = false) by (apply not_true_is_false; intro F; rewrite forallb_forall in F; rewrite Exists_exists in H; destruct H as (y & Hy & Ny); rewrite (F y Hy) in Ny; discriminate). rewrite F in N1, N2. auto.
  Qed.
End Sliding.
Print Assumptions C71_sliding_partial.
(** The minimum of a window with an infinity and without NaN is not found. *)
Theorem C71_sliding_refuted : exists (array : list (Np.num Z)), sliding_min array 2 = Ok [NaN] /\ sliding_max array 2 = Ok [NaN] /\ least array (Fin 1%Z) /\ greatest array PInf.
Proof. exists [Fin 1%Z; PInf]. repeat (split; [reflexivity|]). repeat split; cbn; auto; intros y [<-|[<-|[]]]; reflexivity. Qed.
Print Assumptions C71_sliding_refuted.
Example C71_example : sliding_min (map Fz [3; 1; 2; 5; 4; 4]%Z) 3 = Ok (map Fz [1; 1; 2; 4]%Z) /\ sliding_max (map Fz [3; 1; 2; 5; 4; 4]%Z) 3 = Ok (map Fz [3; 5; 5; 5]%Z) /\
  sliding_min (map Fz [3; 1]%Z) 3 = Ok [] /\ sliding_min [Fz 3; NaN; Fz 2; Fz 1]%Z 2 = Ok [NaN; NaN; Fz 1].
Proof. vm_compute. auto. Qed.

(** ** C72 *)
(** Subsequence [s] of length [m] contains data point [idx]. *)
Definition touches (m s idx : Z) : Prop := (s <= idx < s + m)%Z.

Lemma add_spec l : forall s, NoDup s -> NoDup (fold_left (fun s x => if existsb (Z.eqb x) s then s else s ++ [x]) l s) /\
  forall y, In y (fold_left (fun s x => if existsb (Z.eqb x) s then s else s ++ [x]) l s) <-> In y s \/ In y l.
Proof.
  induction l as [|x l IH]; intros s N; cbn [fold_left]; [split; [exact N|]; intro y; cbn; tauto|].
  assert (E : existsb (Z.eqb x) s = true <-> In x s).
  { rewrite existsb_exists. split; [intros (z & Hz & Ez); apply Z.eqb_eq in Ez; subst; exact Hz|intro H; exists x; split; [exact H|apply Z.eqb_refl]]. }
  destruct (existsb (Z.eqb x) s).
  - destruct (IH s N) as [I1 I2]. split; [exact I1|]. intro y. rewrite I2. cbn. split; [tauto|]. intros [H|[<-|H]]; [tauto| |tauto]. left. apply E. reflexivity.
  - assert (N' : NoDup (s ++ [x])). { apply NoDup_Add with (a := x) (l := s); [rewrite <- (app_nil_r s) at 1; apply Add_app|]. split; [exact N|]. intro H. apply E in H. discriminate. }
    destruct (IH _ N') as [I1 I2]. split; [exact I1|]. intro y. rewrite I2, in_app_iff. cbn. tauto.
Qed.

(** What is returned: for every dimension the numbers below the greatest bound of its invalid points. *)
Definition invalid_bound (m lo hi idx : Z) : Z := Z.max lo (Z.max (idx - m + 1) (Z.min (idx + m) hi)).

Lemma find_invalid_spec set_order invalid dims m lo hi : (forall l, Permutation (set_order l) l) -> (forall d i, In (d, i) invalid -> d < dims) ->
  exists out, find_invalid_subseq_idxs set_order invalid dims m lo hi = Ok out /\ length out = dims /\
    forall d s, nth_error out d = Some s -> NoDup s /\ forall y, In y s <-> exists i, In (d, i) invalid /\ (0 <= y < invalid_bound m lo hi i)%Z.
Proof.
  intros HP HD. unfold find_invalid_subseq_idxs.
  set (f := fun sets di => _).
  assert (G : forall inv done sets, (forall d i, In (d, i) inv -> d < dims) -> length sets = dims ->
    (forall d s, nth_error sets d = Some s -> NoDup s /\ forall y, In y s <-> exists i, In (d, i) done /\ (0 <= y < invalid_bound m lo hi i)%Z) ->
    exists sets', foldM f inv sets = Ok sets' /\ length sets' = dims /\
      forall d s, nth_error sets' d = Some s -> NoDup s /\ forall y, In y s <-> exists i, In (d, i) (done ++ inv) /\ (0 <= y < invalid_bound m lo hi i)%Z).
  { clear HD. induction inv as [|[d0 i0] inv IH]; intros done sets HD L H; cbn [foldM].
    - exists sets. rewrite app_nil_r. auto.
    - assert (Hd : d0 < dims) by (apply (HD d0 i0); left; reflexivity). unfold f at 1. cbn [fst snd].
      destruct (nth_error sets d0) as [s0|] eqn:E0; [|apply nth_error_None in E0; lia]. unfold getitem at 1. rewrite E0. cbn [bind]. unfold setitem. destruct (d0 <? length sets) eqn:El; [|apply Nat.ltb_ge in El; lia]. cbn [bind].
      destruct (H d0 s0 E0) as [N0 I0]. fold (invalid_bound m lo hi i0). set (s1 := fold_left _ _ s0). destruct (add_spec (pyrange 0 (invalid_bound m lo hi i0)) N0) as [N1 I1]. fold s1 in N1, I1.
      destruct (IH (done ++ [(d0, i0)]) (splice sets d0 [s1])) as (sets' & E & L' & S').
      + intros d i Hi. apply (HD d i). right. exact Hi.
      + rewrite length_splice by (cbn; lia). exact L.
      + intros d s Hs. destruct (Nat.eq_dec d d0) as [->|Nd].
        * assert (s = s1) as ->. { rewrite nth_error_splice in Hs by (cbn; lia). cbn [length] in Hs. destruct (d0 <? d0) eqn:Eb; [apply Nat.ltb_lt in Eb; lia|]. destruct (d0 <? d0 + 1) eqn:Eb2; [|apply Nat.ltb_ge in Eb2; lia]. rewrite Nat.sub_diag in Hs. cbn in Hs. congruence. }
          split; [exact N1|]. intro y. rewrite I1, I0, in_pyrange. split.
          -- intros [(i & Hi & Hy)|Hy]; [exists i|exists i0]; rewrite in_app_iff; cbn; split; auto.
          -- intros (i & Hi & Hy). apply in_app_iff in Hi. destruct Hi as [Hi|[Hi|[]]]; [left; eauto|]. injection Hi as <-. right. exact Hy.
        * assert (Hs' : nth_error sets d = Some s). { rewrite nth_error_splice in Hs by (cbn; lia). cbn [length] in Hs. destruct (d <? d0) eqn:Eb; [exact Hs|]. apply Nat.ltb_ge in Eb. destruct (d <? d0 + 1) eqn:Eb2; [apply Nat.ltb_lt in Eb2; lia|exact Hs]. }
          destruct (H d s Hs') as [Nn I]. split; [exact Nn|]. intro y. rewrite I. split; intros (i & Hi & Hy); exists i; (split; [|exact Hy]); [apply in_app_iff; left; exact Hi|]. apply in_app_iff in Hi. destruct Hi as [Hi|[Hi|[]]]; [exact Hi|]. congruence.
      + exists sets'. split; [exact E|]. split; [exact L'|]. rewrite <- app_assoc in S'. exact S'. }
  destruct (G invalid [] (repeat [] dims) HD (repeat_length _ _)) as (sets & E & L & S).
  - intros d s Hs. apply nth_error_In, repeat_spec in Hs. subst s. split; [constructor|]. intro y. split; [intros []|intros (i & [] & _)].
  - rewrite E. cbn [bind]. eexists. split; [reflexivity|]. rewrite map_length. split; [exact L|]. intros d s Hs. rewrite nth_error_map in Hs. destruct (nth_error sets d) as [s'|] eqn:Es; [|discriminate]. injection Hs as <-.
    destruct (S d s' Es) as [S1 S2]. split; [apply (Permutation_NoDup (Permutation_sym (HP s')) S1)|]. intro y. rewrite <- S2. split; apply Permutation_in; [apply HP|apply Permutation_sym, HP].
Qed.

(** Exactly what is returned for dimension [d]: without duplicates, the indices that are below the allowed range, or of subsequences that end before
    an invalid point of the dimension, or that are below the allowed maximum and start at most m - 1 points after an invalid point. *)
Theorem C72_exact : forall set_order invalid dims m lo hi, (forall l, Permutation (set_order l) l) -> (forall d i, In (d, i) invalid -> d < dims) ->
  exists out, find_invalid_subseq_idxs set_order invalid dims m lo hi = Ok out /\ length out = dims /\
    forall d s, nth_error out d = Some s -> NoDup s /\
      forall y, In y s <-> (0 <= y)%Z /\ exists i, In (d, i) invalid /\ (y < lo \/ y + m <= i \/ y < hi /\ y < i + m)%Z.
Proof.
  intros set_order invalid dims m lo hi HP HD. destruct (@find_invalid_spec set_order invalid dims m lo hi HP HD) as (out & E & L & S). exists out. split; [exact E|]. split; [exact L|]. intros d s Hs. destruct (S d s Hs) as [N I]. split; [exact N|].
  intro y. rewrite I. unfold invalid_bound. split.
  - intros (i & Hi & Hy). split; [lia|]. exists i. split; [exact Hi|lia].
  - intros (H0 & i & Hi & Hy). exists i. split; [exact Hi|lia].
Qed.
Print Assumptions C72_exact.

(** Every subsequence below [max_result_idx] that touches an invalid point is returned, without duplicates. *)
Theorem C72_affected_partial : forall set_order invalid dims m lo hi, (forall l, Permutation (set_order l) l) -> (forall d i, In (d, i) invalid -> d < dims) -> (0 <= lo)%Z ->
  exists out, find_invalid_subseq_idxs set_order invalid dims m lo hi = Ok out /\ length out = dims /\
    forall d s, nth_error out d = Some s -> NoDup s /\
      forall y i, In (d, i) invalid -> touches m y i -> (lo <= y < hi)%Z -> In y s.
Proof.
  intros set_order invalid dims m lo hi HP HD Hlo. destruct (@find_invalid_spec set_order invalid dims m lo hi HP HD) as (out & E & L & S). exists out. split; [exact E|]. split; [exact L|]. intros d s Hs. destruct (S d s Hs) as [N I]. split; [exact N|].
  intros y i Hi Ht Hy. apply I. exists i. split; [exact Hi|]. unfold invalid_bound, touches in *. lia.
Qed.
Print Assumptions C72_affected_partial.
(** It also returns subsequences that touch no invalid point and lie outside of the allowed range, on both sides; the index [max_result_idx] itself is not returned. *)
Theorem C72_affected_refuted :
  (exists out : list Z, find_invalid_subseq_idxs (fun l => l) [(0, 9%Z)] 1 2 5 20 = Ok [out] /\ In 0%Z out /\ In 10%Z out /\ ~ touches 2 0 9 /\ ~ touches 2 10 9) /\
  (exists out : list Z, find_invalid_subseq_idxs (fun l => l) [(0, 9%Z)] 1 2 1 4 = Ok [out] /\ In 7%Z out) /\
  (exists out : list Z, find_invalid_subseq_idxs (fun l => l) [(0, 4%Z)] 1 2 1 4 = Ok [out] /\ ~ In 4%Z out /\ touches 2 4 4).
Proof.
  unfold touches. split; [|split].
  - eexists. split; [vm_compute; reflexivity|]. repeat split; try lia; cbn; tauto.
  - eexists. split; [vm_compute; reflexivity|]. cbn; tauto.
  - eexists. split; [vm_compute; reflexivity|]. split; [intros [H|[H|[H|[H|[]]]]]; discriminate|lia].
Qed.
Print Assumptions C72_affected_refuted.
Example C72_example : find_invalid_subseq_idxs (fun l => l) [(0, 1%Z); (1, 0%Z); (0, 0%Z)] 3 2 0 4 = Ok [[0; 1; 2]; [0; 1]; []]%Z.
Proof. vm_compute. reflexivity. Qed.

(** ** C74 *)
(** The work of an AnytimeCalculator is the whole matrix; for a self-join twice the work plus the trivial match zone is the whole matrix. *)
Theorem C74_matrix_values : forall (X G C : Type) shuffle m series query buffer h w (a0 : any X G C), built shuffle m series query buffer h w a0 ->
  num_dist_matrix_values (an_calc a0) = (Z.of_nat h * Z.of_nat w)%Z /\
  match query with
  | Some _ => an_total a0 = num_dist_matrix_values (an_calc a0)
  | None => (2 * an_total a0 + (Z.of_nat w * (2 * buffer_of m buffer + 1) - buffer_of m buffer * (buffer_of m buffer + 1)) = num_dist_matrix_values (an_calc a0))%Z
  end.
Proof.
  intros X G C shuffle m series query buffer h w a0 (HS & E & Hh & Hw & W1 & H1). unfold num_dist_matrix_values. destruct query as [q|].
  - destruct (@any_new_join X G C shuffle m series q buffer h w a0 HS E W1 H1) as [F P]. rewrite (fr_nq F), (fr_ns F), (fr_total F), (size_perm h w P), size_join. lia.
  - assert (h = w) by lia. subst h. destruct (@any_new_self X G C shuffle m series buffer w a0 HS E W1) as (B & F & P). fold (buffer_of m buffer) in *. pose proof (fr_b F) as B1.
    rewrite (fr_nq F), (fr_ns F), (fr_total F), (size_perm w w P). split; [reflexivity|]. pose proof (@size_self w (buffer_of m buffer) ltac:(lia)). nia.
Qed.
Print Assumptions C74_matrix_values.
(** The number added above is the number of cells of the trivial match zone. *)
Lemma seq_le_filter (p q : Z) n : (0 <= p)%Z -> (q <= Z.of_nat n)%Z -> (p <= q)%Z -> Z.of_nat (length (filter (fun c => (p <=? Z.of_nat c)%Z && (Z.of_nat c <? q)%Z) (seq 0 n))) = (q - p)%Z.
Proof.
  intros Hp Hq Hpq. assert (E : Permutation (map Z.of_nat (filter (fun c => (p <=? Z.of_nat c)%Z && (Z.of_nat c <? q)%Z) (seq 0 n))) (pyrange p q)).
  { apply NoDup_Permutation.
    - apply FinFun.Injective_map_NoDup; [intros x y H; lia|]. apply NoDup_filter, seq_NoDup.
    - unfold pyrange, arange. apply FinFun.Injective_map_NoDup; [intros x y H; lia|apply seq_NoDup].
    - intro x. rewrite in_map_iff, in_pyrange. split.
      + intros (c & <- & Hc). apply filter_In in Hc. destruct Hc as [_ Hc]. apply andb_true_iff in Hc. rewrite Z.leb_le, Z.ltb_lt in Hc. exact Hc.
      + intro Hx. exists (Z.to_nat x). split; [lia|]. apply filter_In. rewrite in_seq, andb_true_iff, Z.leb_le, Z.ltb_lt. lia. }
  apply Permutation_length in E. rewrite map_length in E. rewrite E. unfold pyrange, arange. rewrite map_length, seq_length. lia.
Qed.
Theorem C74_zone : forall n b, (0 <= b < Z.of_nat n)%Z ->
  Z.of_nat (length (filter (fun rc => (Z.abs (Z.of_nat (snd rc) - Z.of_nat (fst rc)) <=? b)%Z) (list_prod (seq 0 n) (seq 0 n)))) = (Z.of_nat n * (2 * b + 1) - b * (b + 1))%Z.
Proof.
  intros n b Hb.
  assert (Row : forall r, r < n -> Z.of_nat (length (filter (fun rc => (Z.abs (Z.of_nat (snd rc) - Z.of_nat (fst rc)) <=? b)%Z) (map (fun c => (r, c)) (seq 0 n)))) = (Z.min (Z.of_nat n) (Z.of_nat r + b + 1) - Z.max 0 (Z.of_nat r - b))%Z).
  { intros r Hr. rewrite <- (@seq_le_filter (Z.max 0 (Z.of_nat r - b)) (Z.min (Z.of_nat n) (Z.of_nat r + b + 1)) n) by lia. f_equal.
    assert (G : forall l, incl l (seq 0 n) -> length (filter (fun rc => (Z.abs (Z.of_nat (snd rc) - Z.of_nat (fst rc)) <=? b)%Z) (map (fun c => (r, c)) l)) = length (filter (fun c => (Z.max 0 (Z.of_nat r - b) <=? Z.of_nat c)%Z && (Z.of_nat c <? Z.min (Z.of_nat n) (Z.of_nat r + b + 1))%Z) l)).
    { induction l as [|c l IH]; intro I; [reflexivity|]. cbn [map filter fst snd]. assert (c < n) by (pose proof (I c (or_introl eq_refl)) as Hc; apply in_seq in Hc; lia). specialize (IH (fun x Hx => I x (or_intror Hx))).
      replace ((Z.max 0 (Z.of_nat r - b) <=? Z.of_nat c)%Z && (Z.of_nat c <? Z.min (Z.of_nat n) (Z.of_nat r + b + 1))%Z) with (Z.abs (Z.of_nat c - Z.of_nat r) <=? b)%Z by (apply eq_true_iff_eq; rewrite andb_true_iff, !Z.leb_le, Z.ltb_lt; lia). destruct (_ <=? b)%Z; cbn [length]; lia. }
    apply G, incl_refl. }
  assert (Sum : forall k, k <= n -> (2 * Z.of_nat (length (filter (fun rc => (Z.abs (Z.of_nat (snd rc) - Z.of_nat (fst rc)) <=? b)%Z) (list_prod (seq 0 k) (seq 0 n)))) =
      Z.of_nat k * (Z.of_nat k - 1) + 2 * Z.of_nat k * (b + 1) - Z.max 0 (Z.of_nat k - Z.of_nat n + b) * (Z.max 0 (Z.of_nat k - Z.of_nat n + b) + 1) - Z.max 0 (Z.of_nat k - 1 - b) * (Z.max 0 (Z.of_nat k - 1 - b) + 1))%Z).
  { induction k as [|k IH]; intro Hk; [rewrite !Z.max_l by lia; reflexivity|]. rewrite seq_S. cbn [Nat.add].
    assert (Ap : forall (l l' : list nat) (m : list nat), list_prod (l ++ l') m = list_prod l m ++ list_prod l' m) by (clear; induction l as [|x l IH]; intros; cbn; [reflexivity|rewrite IH, app_assoc; reflexivity]).
    rewrite Ap, filter_app, app_length, Nat2Z.inj_add, Z.mul_add_distr_l, IH by lia. cbn [list_prod]. rewrite app_nil_r, Row by lia. replace (Z.of_nat (S k)) with (Z.of_nat k + 1)%Z by lia.
    destruct (Z.max_spec 0 (Z.of_nat k - b)) as [[X1 ->]|[X1 ->]], (Z.max_spec 0 (Z.of_nat k + 1 - 1 - b)) as [[X2 ->]|[X2 ->]], (Z.max_spec 0 (Z.of_nat k - 1 - b)) as [[X3 ->]|[X3 ->]], (Z.max_spec 0 (Z.of_nat k - Z.of_nat n + b)) as [[X4 ->]|[X4 ->]], (Z.max_spec 0 (Z.of_nat k + 1 - Z.of_nat n + b)) as [[X5 ->]|[X5 ->]], (Z.min_spec (Z.of_nat n) (Z.of_nat k + b + 1)) as [[X6 ->]|[X6 ->]]; try lia; try nia. }
  specialize (Sum n ltac:(lia)). nia.
Qed.
Print Assumptions C74_zone.
Example C74_example : num_dist_matrix_values (an_calc four) = 16%Z /\ an_total four = 3%Z.
Proof. vm_compute. auto. Qed.

(** ** C75 *)
Theorem C75_getitem : forall (T : Type) mem (data : option (list T)) shape n sf os, (1 <= sf)%Q -> (sf <= 2)%Q -> 0 < n ->
  match shape with Some k => k = n | None => exists d, data = Some d /\ length d = n end ->
  exists b0 b s, rb_new mem data shape true sf = Ok b0 /\ foldM (@rb_step T) os b0 = Ok b /\ stream_run n (match data with Some d => d | None => [] end) os s /\
    (forall key x, rb_getitem b key = Ok x <-> exists j, py_index (Nat.min n (length s)) key j /\ nth_error s (window_pos n s j) = Some x) /\
    (forall lo hi j, nth_error (rb_getslice b lo hi) j = if (j <? norm_idx (Nat.min n (length s)) hi - norm_idx (Nat.min n (length s)) lo) then nth_error s (window_pos n s (norm_idx (Nat.min n (length s)) lo + j)) else None) /\
    (forall key, exists e, rb_delitem b key = Err e).
Proof.
  intros T mem data shape n sf os S1 S2 Hn Hs. destruct (@C01_window_is_last_n T mem data shape n sf os S1 S2 Hn Hs) as (b0 & b & s & E1 & E2 & R & V). exists b0, b, s. split; [exact E1|]. split; [exact E2|]. split; [exact R|]. specialize (V s R).
  assert (LV : length (rb_view b) = Nat.min n (length s)) by (rewrite V; unfold lastn; rewrite skipn_length; lia).
  assert (NV : forall j, nth_error (rb_view b) j = nth_error s (window_pos n s j)) by (intro j; rewrite V; unfold lastn, window_pos; apply nth_error_skipn).
  split; [|split; [|intro key; eexists; reflexivity]].
  - intros key x. unfold rb_getitem, pyget, getitem. rewrite LV. set (k := Nat.min n (length s)) in *. split.
    + destruct ((key <? - Z.of_nat k)%Z || (Z.of_nat k <=? key)%Z) eqn:Er; [discriminate|]. apply orb_false_iff in Er. destruct Er as [Er1 Er2]. apply Z.ltb_ge in Er1. apply Z.leb_gt in Er2.
      intro H. exists (Z.to_nat (if (key <? 0)%Z then (key + Z.of_nat k)%Z else key)). split; [unfold py_index; destruct (key <? 0)%Z eqn:E; [apply Z.ltb_lt in E|apply Z.ltb_ge in E]; lia|].
      rewrite <- NV. destruct (nth_error (rb_view b) _); [congruence|discriminate].
    + intros (j & [Hj Hk] & Hx). destruct ((key <? - Z.of_nat k)%Z || (Z.of_nat k <=? key)%Z) eqn:Er; [apply orb_true_iff in Er; destruct Er as [Er|Er]; [apply Z.ltb_lt in Er|apply Z.leb_le in Er]; lia|].
      replace (Z.to_nat (if (key <? 0)%Z then (key + Z.of_nat k)%Z else key)) with j by (destruct (key <? 0)%Z eqn:E; [apply Z.ltb_lt in E|apply Z.ltb_ge in E]; lia). rewrite NV, Hx. reflexivity.
  - intros lo hi j. unfold rb_getslice, slice. rewrite LV, nth_error_lslice, NV. reflexivity.
Qed.
Print Assumptions C75_getitem.
Example C75_example : exists b0 b, rb_new (fun _ => 0%Z) None (Some 3) true 2%Q = Ok b0 /\ foldM (@rb_step Z) [OpPush [1; 2]%Z; OpPush [3; 4; 5]%Z; OpSetItem (-1) 9%Z] b0 = Ok b /\
  rb_getitem b 0 = Ok 3%Z /\ rb_getitem b (-1) = Ok 9%Z /\ rb_getitem b (-4) = Err IndexError /\ rb_getslice b (-2) 7 = [4; 9]%Z.
Proof. do 2 eexists. split; [vm_compute; reflexivity|]. split; [vm_compute; reflexivity|]. vm_compute. auto. Qed.

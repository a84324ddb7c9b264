From Verif Require Import Np NpFacts Mat MUtil SUtil.
From Coq Require Import Sorted FinFun.
Set Implicit Arguments.

(** ** Enumerations *)
Lemma combine_map {S T U} (f : S -> T) (g : S -> U) l :
  combine (map f l) (map g l) = map (fun x => (f x, g x)) l.
Proof. induction l; simpl; congruence. Qed.

Lemma StronglySorted_map_seq {T} (R : T -> T -> Prop) (f : nat -> T) n : forall a,
  (forall i j, i < j -> R (f i) (f j)) -> StronglySorted R (map f (seq a n)).
Proof.
  induction n as [|n IH]; intros a H; simpl; constructor; auto.
  apply Forall_forall. intros x Hx. apply in_map_iff in Hx. destruct Hx as (k & <- & Hk).
  apply in_seq in Hk. apply H. lia.
Qed.

Lemma NoDup_map_seq {T} (f : nat -> T) n a :
  (forall i j, f i = f j -> i = j) -> NoDup (map f (seq a n)).
Proof.
  intro H. apply Injective_map_NoDup; [exact H|apply seq_NoDup].
Qed.

Definition seq_cells (r0 c0 dr : Z) (n : nat) : list (Z * Z) :=
  map (fun k => (r0 + dr * Z.of_nat k, c0 + Z.of_nat k)%Z) (seq 0 n).

Lemma in_seq_cells r0 c0 dr n r c :
  In (r, c) (seq_cells r0 c0 dr n) <->
  (c0 <= c < c0 + Z.of_nat n /\ r = r0 + dr * (c - c0))%Z.
Proof.
  unfold seq_cells. rewrite in_map_iff. split.
  - intros (k & E & Hk). apply in_seq in Hk. inversion E; subst.
    split; [lia|]. f_equal. f_equal. lia.
  - intros (H1 & ->). exists (Z.to_nat (c - c0)). split; [|apply in_seq; lia].
    f_equal; [f_equal; f_equal; lia|lia].
Qed.

Lemma combine_range r0 c0 n :
  combine (arange r0 n) (arange c0 n) = seq_cells r0 c0 1 n.
Proof.
  unfold arange. rewrite combine_map. unfold seq_cells. apply map_ext. intro k. f_equal; lia.
Qed.

Lemma combine_range_down r0 c0 n :
  combine (map (fun k => (r0 - Z.of_nat k)%Z) (seq 0 n)) (arange c0 n) = seq_cells r0 c0 (-1) n.
Proof.
  unfold arange. rewrite combine_map. unfold seq_cells. apply map_ext. intro k. f_equal; lia.
Qed.

Lemma diag_indices_cells h w d : (0 <= h -> 0 <= w ->
  let rc := diag_indices h w d in
  let cells := combine (fst rc) (snd rc) in
  0 <= diag_length h w d /\
  Z.of_nat (length (fst rc)) = diag_length h w d /\
  Z.of_nat (length (snd rc)) = diag_length h w d /\
  NoDup cells /\
  (forall r c, In (r, c) cells <-> 0 <= r < h /\ 0 <= c < w /\ c - r = d) /\
  StronglySorted (fun p q => fst p < fst q /\ snd p < snd q) cells)%Z.
Proof.
  intros Hh Hw rc cells.
  assert (L0 : (0 <= diag_length h w d)%Z) by (unfold diag_length; destruct (0 <=? d)%Z; lia).
  assert (E : exists r0 c0, fst rc = arange r0 (Z.to_nat (diag_length h w d)) /\
     snd rc = arange c0 (Z.to_nat (diag_length h w d)) /\
     (r0 = Z.max 0 (- d) /\ c0 = Z.max 0 d)%Z).
  { unfold rc, diag_indices, pyrange. destruct (Z.leb_spec 0 d); simpl.
    - exists 0%Z, d. split; [f_equal; lia|]. split; [f_equal; lia|]. lia.
    - exists (- d)%Z, 0%Z. split; [f_equal; lia|]. split; [f_equal; lia|]. lia. }
  destruct E as (r0 & c0 & E1 & E2 & E3 & E4).
  unfold cells. rewrite E1, E2, combine_range, !length_arange.
  split; [exact L0|]. split; [lia|]. split; [lia|]. split; [|split].
  - apply NoDup_map_seq. intros i j H. inversion H. lia.
  - intros r c. rewrite in_seq_cells. unfold diag_length in *.
    destruct (Z.leb_spec 0 d); lia.
  - apply StronglySorted_map_seq. intros i j H. cbn [fst snd]. lia.
Qed.

Lemma cut_indices_cells h w cut : (1 <= h -> 1 <= w ->
  let rc := cut_indices h w cut in
  let cells := combine (fst rc) (snd rc) in
  length (fst rc) = length (snd rc) /\
  NoDup cells /\
  (forall r c, In (r, c) cells <-> 0 <= r < h /\ 0 <= c < w /\ r + c = cut) /\
  StronglySorted (fun p q => fst q < fst p /\ snd p < snd q) cells)%Z.
Proof.
  intros Hh Hw rc cells. unfold cells, rc, cut_indices, pyrange, pyrange_down.
  destruct ((cut <? 0)%Z || (w + h - 1 <=? cut)%Z) eqn:E; simpl.
  - split; [reflexivity|]. split; [constructor|]. split; [|constructor]. intros r c. split; [tauto|lia].
  - set (n := (cut + 1 - Z.max 0 (cut - h + 1) - Z.max 0 (cut - w + 1))%Z).
    assert (G : forall r0 c0 k1 k2, k1 = Z.to_nat n -> k2 = Z.to_nat n ->
       (r0 = Z.min cut (h - 1) -> c0 = Z.max 0 (cut - h + 1) ->
        let cells := combine (map (fun k => r0 - Z.of_nat k) (seq 0 k1)) (arange c0 k2) in
        NoDup cells /\
        (forall r c, In (r, c) cells <-> 0 <= r < h /\ 0 <= c < w /\ r + c = cut) /\
        StronglySorted (fun p q => fst q < fst p /\ snd p < snd q) cells)%Z).
    { intros r0 c0 k1 k2 -> -> Hr Hc. rewrite combine_range_down. simpl. split; [|split].
      - apply NoDup_map_seq. intros i j H. inversion H. lia.
      - intros r c. rewrite in_seq_cells. unfold n. lia.
      - apply StronglySorted_map_seq. intros i j H. cbn [fst snd]. lia. }
    destruct (Z.ltb_spec cut h); simpl; (split; [rewrite map_length, seq_length, length_arange; lia|apply G; lia]).
Qed.

(** ** Matrices *)
Section MatFacts.
  Variable T : Type.
  Implicit Types m : mat T.

  Lemma mget_ok m i j v : mget m i j = Ok v <->
    exists r, nth_error m i = Some r /\ nth_error r j = Some v.
  Proof.
    unfold mget. rewrite bind_ok. split.
    - intros (r & E1 & E2). apply getitem_ok in E1, E2. eauto.
    - intros (r & E1 & E2). exists r. rewrite !getitem_ok. auto.
  Qed.

  Lemma is_mat_row h w m i r : is_mat h w m -> nth_error m i = Some r -> length r = w.
  Proof. intros [_ H] E. apply H. eapply nth_error_In; eassumption. Qed.

  Lemma is_mat_get h w m i j : is_mat h w m -> i < h -> j < w -> exists v, mget m i j = Ok v.
  Proof.
    intros M Hi Hj. destruct (@nth_error_lt_some _ m i) as (r & E); [destruct M; lia|].
    destruct (@nth_error_lt_some _ r j) as (v & E'); [rewrite (is_mat_row i M E); exact Hj|].
    exists v. apply mget_ok. eauto.
  Qed.

  Lemma mget_bounds h w m i j v : is_mat h w m -> mget m i j = Ok v -> i < h /\ j < w.
  Proof.
    intros M E. apply mget_ok in E. destruct E as (r & E1 & E2).
    pose proof (is_mat_row i M E1) as L. apply nth_error_some_lt in E1, E2. destruct M. lia.
  Qed.

  Lemma mset_spec h w m i j x : is_mat h w m -> i < h -> j < w ->
    exists m', mset m i j x = Ok m' /\ is_mat h w m' /\
      forall i' j', mget m' i' j' = if (i' =? i) && (j' =? j) then Ok x else mget m i' j'.
  Proof.
    intros M Hi Hj. destruct (@nth_error_lt_some _ m i) as (r & E); [destruct M; lia|].
    pose proof (is_mat_row i M E) as Lr. destruct M as [Lm Hm].
    unfold mset. rewrite (proj2 (getitem_ok m i r) E). simpl.
    rewrite setitem_ok by lia. simpl. rewrite setitem_ok by lia.
    eexists; split; [reflexivity|]. split; [split|].
    - rewrite length_set1; lia.
    - intros r' Hr'. apply In_nth_error in Hr'. destruct Hr' as (k & Hk).
      rewrite nth_error_set1 in Hk by lia. destruct (k =? i).
      + inversion Hk. rewrite length_set1; lia.
      + apply Hm. eapply nth_error_In; eassumption.
    - intros i' j'. unfold mget, getitem. rewrite nth_error_set1 by lia.
      destruct (Nat.eqb_spec i' i); simpl; [|reflexivity].
      subst. rewrite E. simpl. rewrite nth_error_set1 by lia.
      destruct (j' =? j); reflexivity.
  Qed.

  Lemma mgetz_nat m i j : i < length m -> (forall r, nth_error m i = Some r -> j < length r) ->
    mgetz m (Z.of_nat i) (Z.of_nat j) = mget m i j.
  Proof.
    intros Hi Hj. unfold mgetz, mget, pyget.
    destruct ((Z.of_nat i <? - Z.of_nat (length m))%Z || (Z.of_nat (length m) <=? Z.of_nat i)%Z) eqn:E; [lia|].
    destruct (Z.ltb_spec (Z.of_nat i) 0); [lia|]. rewrite Nat2Z.id.
    destruct (@nth_error_lt_some _ m i Hi) as (r & Er).
    unfold getitem at 1 3. rewrite Er. simpl. specialize (Hj _ Er).
    destruct ((Z.of_nat j <? - Z.of_nat (length r))%Z || (Z.of_nat (length r) <=? Z.of_nat j)%Z) eqn:E'; [lia|].
    destruct (Z.ltb_spec (Z.of_nat j) 0); [lia|]. rewrite Nat2Z.id. reflexivity.
  Qed.
End MatFacts.

(** ** Shortest paths *)
Section Path.
  Context {A : Type} {NA : NumOps A} {OA : OrdLaws A} {MA : AddMono A}.
  Notation num := (num A).

  (** no NaN, no minus infinity *)
  Definition above (x : num) : Prop := match x with Fin _ | PInf => True | _ => False end.

  Lemma above_fadd x y : above x -> above y -> above (fadd x y).
  Proof. destruct x, y; simpl; tauto. Qed.

  Lemma above_nonnan x : above x -> isnan x = false.
  Proof. destruct x; simpl; tauto. Qed.

  Lemma fadd_mono x y z : above x -> above y -> above z -> fleb x y = true -> fleb (fadd x z) (fadd y z) = true.
  Proof.
    destruct x, y, z; simpl; try tauto; try congruence. intros _ _ _ H.
    rewrite nadd_mono; [reflexivity|]. apply negb_true_iff; exact H.
  Qed.

  Variable cost : mat num.
  Variables h w : nat.
  Hypothesis Hcost : is_mat h w cost.
  Hypothesis Hh : 0 < h.
  Hypothesis Hw : 0 < w.
  Hypothesis Habove : forall i j v, mget cost i j = Ok v -> above v.

  Lemma entry_mget p v : entry cost p v <-> mget cost (fst p) (snd p) = Ok v.
  Proof. rewrite mget_ok. reflexivity. Qed.

  Lemma mono_path_above l p c : mono_path cost l p c -> above c.
  Proof.
    induction 1 as [v Hv|l p c q v H IH Hs Hv].
    - apply entry_mget in Hv. eapply Habove; eassumption.
    - apply above_fadd; [exact IH|]. apply entry_mget in Hv. eapply Habove; eassumption.
  Qed.

  Lemma optimal_above p c : optimal cost p c -> above c.
  Proof. intros [(l & Hl) _]. eapply mono_path_above; eassumption. Qed.

  Lemma optimal_start v : mget cost 0 0 = Ok v -> optimal cost (0, 0) v.
  Proof.
    intro Hv. split.
    - exists [(0, 0)]. constructor. apply entry_mget. exact Hv.
    - intros l' c' H. remember (0, 0) as p eqn:Ep. inversion H as [v' Hv' | l p' c q v' H1 H2 H3]; subst.
      + apply entry_mget in Hv'. simpl in Hv'. rewrite Hv in Hv'. inversion Hv'; subst.
        apply fleb_refl. apply above_nonnan. eapply Habove; eassumption.
      + inversion H2.
  Qed.

  (** The optimal cost of a cell from the best of its predecessors. *)
  Lemma optimal_step q v p c :
    mget cost (fst q) (snd q) = Ok v -> sp_step p q -> optimal cost p c ->
    q <> (0, 0) ->
    (forall p' , sp_step p' q -> exists c', optimal cost p' c' /\ fleb c c' = true) ->
    optimal cost q (fadd c v).
  Proof.
    intros Hv Hs Ho Hq Hmin. split.
    - destruct Ho as [(l & Hl) _]. exists (l ++ [q]). econstructor; eauto. apply entry_mget; exact Hv.
    - intros l' c' H. inversion H as [v' Hv' | l p' c2 q' v' H1 H2 H3]; subst.
      + congruence.
      + apply entry_mget in H3. rewrite Hv in H3. inversion H3; subst v'.
        destruct (Hmin p' H2) as (c3 & Ho3 & Hle).
        apply fadd_mono.
        * eapply optimal_above; eassumption.
        * eapply mono_path_above; eassumption.
        * eapply Habove; eassumption.
        * eapply fleb_trans; [exact Hle|]. eapply (proj2 Ho3); eassumption.
  Qed.

  Lemma pymin_spec x y : isnan x = false -> isnan y = false ->
    (pymin x y = x \/ pymin x y = y) /\ fleb (pymin x y) x = true /\ fleb (pymin x y) y = true.
  Proof.
    intros Hx Hy. unfold pymin. destruct (fltb y x) eqn:E.
    - split; [auto|]. split; [apply fltb_fleb; exact E|apply fleb_refl; exact Hy].
    - split; [auto|]. split; [apply fleb_refl; exact Hx|apply fltb_false_fleb; auto].
  Qed.

  Lemma length_cumsum_from l : forall acc : num, length (cumsum_from acc l) = length l.
  Proof. induction l; simpl; auto. Qed.

  Lemma length_cumsum l : length (cumsum (A:=A) l) = length l.
  Proof. destruct l; simpl; auto. rewrite length_cumsum_from. reflexivity. Qed.

  Lemma cumsum_from_step l : forall (acc a v : num) k,
    nth_error (acc :: cumsum_from acc l) k = Some a -> nth_error l k = Some v ->
    nth_error (cumsum_from acc l) k = Some (fadd a v).
  Proof.
    induction l as [|x l IH]; intros acc a v k Ha Hv; [destruct k; discriminate|].
    destruct k as [|k]; simpl in *.
    - congruence.
    - eapply IH; eauto.
  Qed.

  Lemma cumsum_0 l : nth_error (cumsum (A:=A) l) 0 = nth_error l 0.
  Proof. destruct l; reflexivity. Qed.

  Lemma cumsum_S l k a v : nth_error (cumsum (A:=A) l) k = Some a -> nth_error l (S k) = Some v ->
    nth_error (cumsum l) (S k) = Some (fadd a v).
  Proof.
    destruct l as [|x l]; simpl; [discriminate|]. intros Ha Hv. eapply cumsum_from_step; eauto.
  Qed.

  (** The first row and the first column. *)
  Lemma row0_optimal r0 : nth_error cost 0 = Some r0 -> forall j, j < w ->
    exists c, nth_error (cumsum r0) j = Some c /\ optimal cost (0, j) c.
  Proof.
    intros E0 j; induction j as [|j IH]; intro Hj.
    - destruct (@is_mat_get _ h w cost 0 0 Hcost Hh Hw) as (v & Hv). exists v.
      rewrite cumsum_0. split; [|apply optimal_start; exact Hv].
      apply mget_ok in Hv. destruct Hv as (r & Er & Ev). congruence.
    - destruct IH as (c & Ec & Oc); [lia|].
      destruct (@is_mat_get _ h w cost 0 (S j) Hcost Hh Hj) as (v & Hv).
      exists (fadd c v). split.
      + apply mget_ok in Hv. destruct Hv as (r & Er & Ev). eapply cumsum_S; eauto. congruence.
      + eapply optimal_step; eauto.
        * constructor.
        * discriminate.
        * intros p' Hp'. inversion Hp'; subst. exists c. split; [exact Oc|].
          apply fleb_refl. apply above_nonnan. eapply optimal_above; eassumption.
  Qed.

  Lemma mapM_get0 : exists col, mapM (fun r : list num => getitem r 0) cost = Ok col /\ length col = h /\
    forall i, i < h -> exists v, nth_error col i = Some v /\ mget cost i 0 = Ok v.
  Proof.
    destruct Hcost as [Lc Hc]. clear Habove Hcost Hh. revert h Lc.
    induction cost as [|r m IH]; intros h' Lc; simpl in *.
    - exists []. split; [reflexivity|]. split; [auto|]. intros; lia.
    - destruct (@nth_error_lt_some _ r 0) as (x & Ex); [rewrite (Hc r); auto|].
      unfold getitem at 1. rewrite Ex. simpl.
      destruct (IH (fun r' Hr' => Hc r' (or_intror Hr')) (length m) eq_refl) as (col & Ec & Ll & Hcol).
      rewrite Ec. simpl. exists (x :: col). split; [reflexivity|]. split; [simpl; lia|].
      intros [|i] Hi.
      + exists x. split; [reflexivity|]. apply mget_ok. exists r. auto.
      + destruct (Hcol i) as (v & Hv & Hv'); [lia|]. exists v. split; [exact Hv|].
        apply mget_ok in Hv'. apply mget_ok. exact Hv'.
  Qed.

  Lemma col0_optimal col : (forall i, i < h -> exists v, nth_error col i = Some v /\ mget cost i 0 = Ok v) ->
    forall i, i < h -> exists c, nth_error (cumsum col) i = Some c /\ optimal cost (i, 0) c.
  Proof.
    intros Hcol i; induction i as [|i IH]; intro Hi.
    - destruct (Hcol 0 Hi) as (v & Ev & Hv). exists v. rewrite cumsum_0. split; [exact Ev|].
      apply optimal_start; exact Hv.
    - destruct IH as (c & Ec & Oc); [lia|]. destruct (Hcol (S i) Hi) as (v & Ev & Hv).
      exists (fadd c v). split; [eapply cumsum_S; eauto|].
      eapply optimal_step; eauto.
      + constructor.
      + discriminate.
      + intros p' Hp'. inversion Hp'; subst. exists c. split; [exact Oc|].
        apply fleb_refl. apply above_nonnan. eapply optimal_above; eassumption.
  Qed.

  (** [set_col0] *)
  Lemma set_col0_spec v dist : is_mat h w dist -> length v = h ->
    exists dist', set_col0 (A:=A) dist v = Ok dist' /\ is_mat h w dist' /\
      forall i j, i < h -> mget dist' i j = if j =? 0 then getitem v i else mget dist i j.
  Proof.
    intros M Lv. unfold set_col0.
    destruct (@foldM_inv (mat num) (nat * num) (fun d ix => mset d (fst ix) 0 (snd ix))
      (fun done d => is_mat h w d /\ forall i j, mget d i j =
         if (j =? 0) && (i <? length done) then getitem v i else mget dist i j) dist)
      with (l := combine (seq 0 (length v)) v) as (d & E & Md & Hd).
    - split; [exact M|]. intros i j. rewrite andb_false_r. reflexivity.
    - intros l1 x l2 d Ex (Md & Hd).
      assert (Hx : nth_error (combine (seq 0 (length v)) v) (length l1) = Some x).
      { rewrite Ex. rewrite nth_error_app2 by lia. rewrite Nat.sub_diag. reflexivity. }
      assert (Ll : length l1 < length v).
      { assert (L := f_equal (@length _) Ex). rewrite combine_length, seq_length, app_length in L. simpl in L. lia. }
      destruct (@nth_error_lt_some _ v (length l1) Ll) as (y & Ey).
      assert (x = (length l1, y)) as ->.
      { assert (C : nth_error (combine (seq 0 (length v)) v) (length l1) = Some (length l1, y)).
        { clear Ex Hx Hd Md. revert Ll Ey. generalize (length l1) as k.
          assert (G : forall a k, k < length v -> nth_error v k = Some y ->
             nth_error (combine (seq a (length v)) v) k = Some (a + k, y)).
          { clear. induction v as [|z v IH]; intros a k Hk Hy; simpl in *; [lia|].
            destruct k; simpl in *; [inversion Hy; f_equal; f_equal; lia|].
            rewrite IH; auto; [f_equal; f_equal; lia|lia]. }
          intros k Hk Hy. exact (G 0 k Hk Hy). }
        congruence. }
      simpl. destruct (@mset_spec _ h w d (length l1) 0 y Md) as (d' & E' & Md' & Hd'); [lia|exact Hw|].
      exists d'. split; [exact E'|]. split; [exact Md'|]. intros i j. rewrite Hd', Hd, app_length. simpl.
      destruct (Nat.eqb_spec i (length l1)); destruct (Nat.eqb_spec j 0); simpl.
      + subst. destruct (Nat.ltb_spec (length l1) (length l1 + 1)); [|lia]. unfold getitem. rewrite Ey. reflexivity.
      + reflexivity.
      + destruct (Nat.ltb_spec i (length l1)); destruct (Nat.ltb_spec i (length l1 + 1)); auto; lia.
      + reflexivity.
    - exists d. split; [exact E|]. split; [exact Md|]. intros i j Hi. rewrite Hd.
      rewrite combine_length, seq_length, Nat.min_id.
      destruct (Nat.ltb_spec i (length v)); [|lia]. rewrite andb_true_r. reflexivity.
  Qed.

  Definition opt_at (dist : mat num) (i j : nat) : Prop :=
    exists c, mget dist i j = Ok c /\ optimal cost (i, j) c.

  (** The three candidate predecessors of an inner cell. *)
  Lemma sp_cell_spec dist c r : is_mat h w dist -> S c < h -> S r < w ->
    opt_at dist c (S r) -> opt_at dist (S c) r -> opt_at dist c r ->
    exists dist', sp_cell cost dist (S c) (S r) = Ok dist' /\ is_mat h w dist' /\
      opt_at dist' (S c) (S r) /\
      forall i j, (i, j) <> (S c, S r) -> mget dist' i j = mget dist i j.
  Proof.
    intros M Hc Hr (u & Eu & Ou) (l & El & Ol) (g & Eg & Og).
    unfold sp_cell. replace (S c - 1) with c by lia. replace (S r - 1) with r by lia.
    rewrite Eu, El, Eg. simpl.
    destruct (@is_mat_get _ h w cost (S c) (S r) Hcost Hc Hr) as (v & Hv). rewrite Hv. simpl.
    set (b := pymin (pymin u l) g).
    destruct (@mset_spec _ h w dist (S c) (S r) (fadd b v) M Hc Hr) as (d' & E' & M' & Hd').
    exists d'. split; [exact E'|]. split; [exact M'|]. split.
    - exists (fadd b v). rewrite Hd', !Nat.eqb_refl. simpl. split; [reflexivity|].
      pose proof (above_nonnan _ (optimal_above Ou)) as Nu.
      pose proof (above_nonnan _ (optimal_above Ol)) as Nl.
      pose proof (above_nonnan _ (optimal_above Og)) as Ng.
      destruct (pymin_spec u l Nu Nl) as (C1 & L1 & L2).
      assert (N1 : isnan (pymin u l) = false) by (destruct C1 as [-> | ->]; assumption).
      destruct (pymin_spec (pymin u l) g N1 Ng) as (C2 & L3 & L4). fold b in C2, L3, L4.
      assert (Lu : fleb b u = true) by (exact (fleb_trans _ _ _ L3 L1)).
      assert (Ll : fleb b l = true) by (exact (fleb_trans _ _ _ L3 L2)).
      assert (Hmin : forall p', sp_step p' (S c, S r) -> exists c', optimal cost p' c' /\ fleb b c' = true).
      { intros p' Hp'. inversion Hp'; subst; eauto. }
      assert (Hb : exists p, sp_step p (S c, S r) /\ optimal cost p b).
      { destruct C2 as [C2|C2]; [destruct C1 as [C1|C1]|].
        - exists (c, S r). rewrite C2, C1. split; [constructor|exact Ou].
        - exists (S c, r). rewrite C2, C1. split; [constructor|exact Ol].
        - exists (c, r). rewrite C2. split; [constructor|exact Og]. }
      destruct Hb as (p & Hp & Op). eapply optimal_step; eauto. discriminate.
    - intros i j Hij. rewrite Hd'.
      destruct (Nat.eqb_spec i (S c)); destruct (Nat.eqb_spec j (S r)); simpl; auto. congruence.
  Qed.

  Lemma sp_row_spec dist c : is_mat h w dist -> S c < h ->
    (forall j, j < w -> opt_at dist c j) -> opt_at dist (S c) 0 ->
    exists dist', foldM (fun d r => sp_cell cost d (S c) r) (seq 1 (w - 1)) dist = Ok dist' /\
      is_mat h w dist' /\ (forall j, j < w -> opt_at dist' (S c) j) /\
      forall i j, i <> S c \/ j = 0 -> mget dist' i j = mget dist i j.
  Proof.
    intros M Hc Hprev H0.
    destruct (@foldM_inv (mat num) nat (fun d r => sp_cell cost d (S c) r)
      (fun done d => is_mat h w d /\ (forall j, j <= length done -> opt_at d (S c) j) /\
         forall i j, i <> S c \/ j = 0 -> mget d i j = mget dist i j) dist)
      with (l := seq 1 (w - 1)) as (d & E & Md & Hd & Hk).
    - split; [exact M|]. split; [|auto]. intros j Hj. simpl in Hj. replace j with 0 by lia. exact H0.
    - intros l1 x l2 d Ex (Md & Hd & Hk).
      assert (Hx : nth_error (seq 1 (w - 1)) (length l1) = Some x).
      { rewrite Ex. rewrite nth_error_app2 by lia. rewrite Nat.sub_diag. reflexivity. }
      rewrite nth_error_seq in Hx. destruct (Nat.ltb_spec (length l1) (w - 1)); [|discriminate].
      inversion Hx; clear Hx. subst x. simpl.
      destruct (@sp_cell_spec d c (length l1) Md Hc) as (d' & E' & Md' & Ho & Hd').
      + lia.
      + destruct (Hprev (S (length l1))) as (v & Ev & Ov); [lia|]. exists v. rewrite Hk by lia. auto.
      + apply Hd; lia.
      + destruct (Hprev (length l1)) as (v & Ev & Ov); [lia|]. exists v. rewrite Hk by lia. auto.
      + exists d'. split; [exact E'|]. split; [exact Md'|]. split.
        * rewrite app_length. simpl. intros j Hj. destruct (Nat.eq_dec j (S (length l1))) as [->|Hn]; [exact Ho|].
          destruct (Hd j) as (v & Ev & Ov); [lia|]. exists v. rewrite Hd'; [auto|congruence].
        * intros i j Hij. rewrite Hd'; [apply Hk; exact Hij|]. intro Eq; inversion Eq; subst; lia.
    - exists d. split; [exact E|]. split; [exact Md|]. split; [|exact Hk].
      intros j Hj. apply Hd. rewrite seq_length. lia.
  Qed.

  Lemma sp_distances_spec garbage :
    exists dist, shortest_path_distances garbage cost = Ok dist /\ is_mat h w dist /\
      forall i j, i < h -> j < w -> opt_at dist i j.
  Proof.
    unfold shortest_path_distances. destruct Hcost as [Lc Hc].
    destruct (@nth_error_lt_some _ cost 0) as (r0 & E0); [lia|].
    assert (Lr0 : length r0 = w) by (eapply is_mat_row; eassumption).
    assert (Nc : ncols cost = w).
    { destruct cost as [|r m]; [discriminate|]. simpl in *. inversion E0; subst; reflexivity. }
    rewrite Nc, Lc.
    set (g := map (fun i => map (garbage i) (seq 0 w)) (seq 0 h)).
    assert (Mg : is_mat h w g).
    { split; [unfold g; rewrite map_length, seq_length; reflexivity|].
      intros r Hr. apply in_map_iff in Hr. destruct Hr as (i & <- & _). rewrite map_length, seq_length. reflexivity. }
    rewrite (proj2 (getitem_ok cost 0 r0) E0). simpl.
    rewrite setitem_ok by (destruct Mg; lia). simpl.
    set (d1 := splice g 0 [cumsum r0]).
    assert (M1 : is_mat h w d1).
    { split.
      - unfold d1. rewrite length_set1; destruct Mg; lia.
      - intros r Hr. apply In_nth_error in Hr. destruct Hr as (k & Hk). unfold d1 in Hk.
        rewrite nth_error_set1 in Hk by (destruct Mg; lia). destruct (k =? 0).
        + inversion Hk. rewrite length_cumsum. exact Lr0.
        + eapply is_mat_row; eassumption. }
    destruct mapM_get0 as (col & Ecol & Lcol & Hcol). rewrite Ecol. simpl.
    destruct (@set_col0_spec (cumsum col) d1 M1) as (d2 & E2 & M2 & H2); [rewrite length_cumsum; exact Lcol|].
    rewrite E2. simpl.
    assert (Hrow : forall j, j < w -> opt_at d2 0 j).
    { intros j Hj. destruct (row0_optimal E0 Hj) as (c & Ec & Oc).
      destruct (Nat.eq_dec j 0) as [->|Hn].
      - destruct (@col0_optimal col Hcol 0 Hh) as (c' & Ec' & Oc'). exists c'. rewrite H2 by exact Hh. simpl.
        rewrite getitem_ok. auto.
      - exists c. split; [|exact Oc]. rewrite H2 by exact Hh. destruct (Nat.eqb_spec j 0); [lia|].
        apply mget_ok. exists (cumsum r0). split; [|exact Ec]. unfold d1.
        rewrite nth_error_set1 by (destruct Mg; lia). reflexivity. }
    assert (Hcl : forall i, i < h -> opt_at d2 i 0).
    { intros i Hi. destruct (@col0_optimal col Hcol i Hi) as (c & Ec & Oc). exists c. rewrite H2 by exact Hi.
      simpl. rewrite getitem_ok. auto. }
    destruct (@foldM_inv (mat num) nat
      (fun d c => foldM (fun d r => sp_cell cost d c r) (seq 1 (w - 1)) d)
      (fun done d => is_mat h w d /\ (forall i j, i <= length done -> j < w -> opt_at d i j) /\
         forall i, i < h -> opt_at d i 0) d2) with (l := seq 1 (h - 1)) as (d & E & Md & Hd & _).
    - split; [exact M2|]. split; [|exact Hcl]. simpl. intros i j Hi Hj. replace i with 0 by lia. auto.
    - intros l1 x l2 d Ex (Md & Hd & Hk).
      assert (Hx : nth_error (seq 1 (h - 1)) (length l1) = Some x).
      { rewrite Ex. rewrite nth_error_app2 by lia. rewrite Nat.sub_diag. reflexivity. }
      rewrite nth_error_seq in Hx. destruct (Nat.ltb_spec (length l1) (h - 1)); [|discriminate].
      inversion Hx; clear Hx. subst x. simpl.
      destruct (@sp_row_spec d (length l1) Md) as (d' & E' & Md' & Ho & Hd').
      + lia.
      + intros j Hj. apply Hd; lia.
      + apply Hk; lia.
      + exists d'. split; [exact E'|]. split; [exact Md'|]. split.
        * rewrite app_length. simpl. intros i j Hi Hj.
          destruct (Nat.eq_dec i (S (length l1))) as [->|Hn]; [apply Ho; exact Hj|].
          destruct (Hd i j) as (v & Ev & Ov); [lia|exact Hj|]. exists v. rewrite Hd' by auto. auto.
        * intros i Hi. destruct (Hk i Hi) as (v & Ev & Ov). exists v. rewrite Hd' by auto. auto.
    - exists d. split; [exact E|]. split; [exact Md|]. intros i j Hi Hj. apply Hd; [|exact Hj].
      rewrite seq_length. lia.
  Qed.

  (** ** Backtracking *)
  Hypothesis Hfin : forall i j v, mget cost i j = Ok v -> isfinite v = true.

  Lemma mono_path_finite l p c : mono_path cost l p c -> isfinite c = true.
  Proof.
    induction 1 as [v Hv|l p c q v H IH Hs Hv].
    - apply entry_mget in Hv. eapply Hfin; eassumption.
    - apply entry_mget in Hv. apply Hfin in Hv. destruct c, v; simpl in *; congruence.
  Qed.

  Lemma optimal_unique p c c' : optimal cost p c -> optimal cost p c' -> c = c'.
  Proof.
    intros [(l & Hl) H] [(l' & Hl') H']. apply fle_antisym; eauto.
  Qed.

  Lemma mget_z (dist : mat num) i j : is_mat h w dist -> i < h -> j < w ->
    mgetz dist (Z.of_nat i) (Z.of_nat j) = mget dist i j.
  Proof.
    intros M Hi Hj. apply mgetz_nat; [destruct M; lia|].
    intros r Er. rewrite (is_mat_row i M Er). exact Hj.
  Qed.

  Definition pos (p : nat * nat) : Z * Z := (Z.of_nat (fst p), Z.of_nat (snd p)).

  Lemma sp_choose_spec (dist : mat num) q step : is_mat h w dist ->
    (forall i j, i < h -> j < w -> opt_at dist i j) ->
    fst q < h -> snd q < w -> q <> (0, 0) ->
    exists p s, sp_choose dist (fst (pos q)) (snd (pos q)) step = Ok s /\
      (fst (pos q) + fst s, snd (pos q) + snd s)%Z = pos p /\ sp_step p q /\
      fst p < h /\ snd p < w /\
      forall cq v, optimal cost q cq -> mget cost (fst q) (snd q) = Ok v ->
        exists cp, optimal cost p cp /\ cq = fadd cp v.
  Proof.
    intros M Hopt Hi Hj Hq. destruct q as [i j]. cbn [fst snd pos] in *.
    assert (Fin' : forall a b c, a < h -> b < w -> mget dist a b = Ok c -> optimal cost (a, b) c /\ fltb c PInf = true).
    { intros a b c Ha Hb E. destruct (Hopt a b Ha Hb) as (c' & E' & O'). rewrite E in E'. inversion E'; subst.
      split; [exact O'|]. destruct O' as [(l & Hl) _]. apply mono_path_finite in Hl. destruct c'; simpl in *; congruence. }
    assert (Key : forall p cp, sp_step p (i, j) -> optimal cost p cp ->
       (forall p', sp_step p' (i, j) -> exists c', optimal cost p' c' /\ fleb cp c' = true) ->
       forall cq v, optimal cost (i, j) cq -> mget cost i j = Ok v ->
        exists cp, optimal cost p cp /\ cq = fadd cp v).
    { intros p cp Hs Op Hmin cq v Ocq Ev. exists cp. split; [exact Op|].
      eapply optimal_unique; [exact Ocq|]. eapply optimal_step; eauto. }
    unfold sp_choose.
    destruct i as [|i]; destruct j as [|j]; [congruence| | |].
    - (* first row *)
      replace (Z.of_nat (S j) =? 0)%Z with false by lia.
      change (Z.of_nat 0 =? 0)%Z with true. cbn [negb andb bind].
      replace (Z.of_nat (S j) - 1)%Z with (Z.of_nat j) by lia.
      change (Z.of_nat 0) with 0%Z.
      replace (mgetz dist 0 (Z.of_nat j)) with (mget dist 0 j) by (symmetry; apply (@mget_z dist 0 j M); lia).
      destruct (Hopt 0 j) as (c & Ec & Oc); [lia|lia|]. rewrite Ec. cbn [bind].
      destruct (Fin' _ _ _ Hi (Nat.lt_le_incl _ _ Hj) Ec) as [_ F]. rewrite F. cbn [bind].
      exists (0, j), (0, -1)%Z. split; [reflexivity|]. split; [unfold pos; cbn [fst snd]; f_equal; lia|].
      split; [constructor|]. split; [simpl; lia|]. split; [simpl; lia|].
      eapply Key; eauto; [constructor|]. intros p' Hp'. inversion Hp'; subst. exists c. split; [exact Oc|].
      apply fleb_refl, above_nonnan, (optimal_above Oc).
    - replace (Z.of_nat (S i) =? 0)%Z with false by lia.
      change (Z.of_nat 0 =? 0)%Z with true. cbn [negb andb bind].
      replace (Z.of_nat (S i) - 1)%Z with (Z.of_nat i) by lia.
      change (Z.of_nat 0) with 0%Z.
      replace (mgetz dist (Z.of_nat i) 0) with (mget dist i 0) by (symmetry; apply (@mget_z dist i 0 M); lia).
      destruct (Hopt i 0) as (c & Ec & Oc); [lia|lia|]. rewrite Ec. cbn [bind].
      destruct (Fin' _ _ _ (Nat.lt_le_incl _ _ Hi) Hj Ec) as [_ F]. rewrite F. cbn [bind].
      exists (i, 0), (-1, 0)%Z. split; [reflexivity|]. split; [unfold pos; cbn [fst snd]; f_equal; lia|].
      split; [constructor|]. split; [simpl; lia|]. split; [simpl; lia|].
      eapply Key; eauto; [constructor|]. intros p' Hp'. inversion Hp'; subst. exists c. split; [exact Oc|].
      apply fleb_refl, above_nonnan, (optimal_above Oc).
    - replace (Z.of_nat (S i) =? 0)%Z with false by lia.
      replace (Z.of_nat (S j) =? 0)%Z with false by lia. cbn [negb andb].
      replace (Z.of_nat (S i) - 1)%Z with (Z.of_nat i) by lia.
      replace (Z.of_nat (S j) - 1)%Z with (Z.of_nat j) by lia.
      rewrite !mget_z by (auto; lia).
      destruct (Hopt i j) as (g & Eg & Og); [lia|lia|].
      destruct (Hopt i (S j)) as (u & Eu & Ou); [lia|lia|].
      destruct (Hopt (S i) j) as (l & El & Ol); [lia|lia|].
      pose proof (above_nonnan _ (optimal_above Ou)) as Nu.
      pose proof (above_nonnan _ (optimal_above Ol)) as Nl.
      pose proof (above_nonnan _ (optimal_above Og)) as Ng.
      rewrite Eg. cbn [bind]. rewrite Eu. cbn [bind].
      assert (Three : forall b, fleb b g = true -> fleb b u = true -> fleb b l = true ->
        forall p', sp_step p' (S i, S j) -> exists c', optimal cost p' c' /\ fleb b c' = true).
      { intros b Bg Bu Bl p' Hp'. inversion Hp'; subst; eauto. }
      destruct (fltb u g) eqn:F1; cbn [bind]; rewrite El; cbn [bind].
      + destruct (fltb l u) eqn:F2; cbn [bind].
        * exists (S i, j), (0, -1)%Z. split; [reflexivity|]. split; [unfold pos; cbn [fst snd]; f_equal; lia|].
          split; [constructor|]. split; [simpl; lia|]. split; [simpl; lia|].
          eapply Key; eauto; [constructor|]. apply Three.
          -- apply fltb_fleb. eapply fltb_trans; eassumption.
          -- apply fltb_fleb; exact F2.
          -- apply fleb_refl; exact Nl.
        * exists (i, S j), (-1, 0)%Z. split; [reflexivity|]. split; [unfold pos; cbn [fst snd]; f_equal; lia|].
          split; [constructor|]. split; [simpl; lia|]. split; [simpl; lia|].
          eapply Key; eauto; [constructor|]. apply Three.
          -- apply fltb_fleb; exact F1.
          -- apply fleb_refl; exact Nu.
          -- apply fltb_false_fleb; auto.
      + destruct (fltb l g) eqn:F2; cbn [bind].
        * exists (S i, j), (0, -1)%Z. split; [reflexivity|]. split; [unfold pos; cbn [fst snd]; f_equal; lia|].
          split; [constructor|]. split; [simpl; lia|]. split; [simpl; lia|].
          eapply Key; eauto; [constructor|]. apply Three.
          -- apply fltb_fleb; exact F2.
          -- apply fltb_fleb. eapply fltb_fle_trans; [exact F2|]. apply fltb_false_fleb; auto.
          -- apply fleb_refl; exact Nl.
        * exists (i, j), (-1, -1)%Z. split; [reflexivity|]. split; [unfold pos; cbn [fst snd]; f_equal; lia|].
          split; [constructor|]. split; [simpl; lia|]. split; [simpl; lia|].
          eapply Key; eauto; [constructor|]. apply Three.
          -- apply fleb_refl; exact Ng.
          -- apply fltb_false_fleb; auto.
          -- apply fltb_false_fleb; auto.
  Qed.

  (** [tail_path q rest target ct]: continuing an optimal path at [q] by [rest] gives a path to [target] of
      cost [ct]. *)
  Definition completes (q : nat * nat) (rest : list (nat * nat)) (target : nat * nat) (ct : num) : Prop :=
    forall l cq, optimal cost q cq -> mono_path cost l q cq -> mono_path cost (l ++ rest) target ct.

  Lemma sp_back_spec (dist : mat num) target ct : is_mat h w dist ->
    (forall i j, i < h -> j < w -> opt_at dist i j) ->
    forall fuel q step rest, fst q + snd q <= fuel -> fst q < h -> snd q < w ->
    completes q rest target ct ->
    exists l, sp_back fuel dist (fst (pos q)) (snd (pos q)) step (map pos (q :: rest)) = Ok (map pos l) /\
      mono_path cost l target ct.
  Proof.
    intros M Hopt. induction fuel as [|fuel IH]; intros q step rest Hf Hi Hj Hc.
    - assert (q = (0, 0)) as -> by (destruct q; simpl in *; f_equal; lia). simpl.
      destruct (@is_mat_get _ h w cost 0 0 Hcost Hh Hw) as (v & Hv).
      exists ((0, 0) :: rest). split; [reflexivity|].
      apply (Hc [(0, 0)] v); [apply optimal_start; exact Hv|]. constructor. apply entry_mget; exact Hv.
    - cbn [sp_back].
      destruct ((fst (pos q) =? 0)%Z && (snd (pos q) =? 0)%Z) eqn:E.
      + assert (q = (0, 0)) as -> by (destruct q; simpl in *; f_equal; lia).
        destruct (@is_mat_get _ h w cost 0 0 Hcost Hh Hw) as (v & Hv).
        exists ((0, 0) :: rest). split; [reflexivity|].
        apply (Hc [(0, 0)] v); [apply optimal_start; exact Hv|]. constructor. apply entry_mget; exact Hv.
      + assert (Hq : q <> (0, 0)) by (intros ->; simpl in E; discriminate).
        destruct (@sp_choose_spec dist q step M Hopt Hi Hj Hq) as (p & s & Es & Ep & Hs & Hpi & Hpj & Hcost').
        rewrite Es. cbn [bind].
        replace (fst (pos q) + fst s)%Z with (fst (pos p)) by (rewrite <- Ep; reflexivity).
        replace (snd (pos q) + snd s)%Z with (snd (pos p)) by (rewrite <- Ep; reflexivity).
        apply (IH p (Some s) (q :: rest)); auto.
        * destruct Hs; simpl in *; lia.
        * intros l cp Ocp Hl.
          destruct (@is_mat_get _ h w cost (fst q) (snd q) Hcost Hi Hj) as (v & Hv).
          destruct (Hopt (fst q) (snd q) Hi Hj) as (cq & _ & Oq).
          assert (Oq' : optimal cost q cq) by (destruct q; exact Oq).
          destruct (Hcost' cq v Oq' Hv) as (cp' & Ocp' & Ecq).
          assert (cp' = cp) by (eapply optimal_unique; eassumption). subst cp'.
          replace (l ++ q :: rest) with ((l ++ [q]) ++ rest) by (rewrite <- app_assoc; reflexivity).
          apply (Hc _ cq); [exact Oq'|]. subst cq. econstructor; eauto. apply entry_mget; exact Hv.
  Qed.

  Lemma shortest_path_spec garbage fuel : h + w <= fuel ->
    exists l c, shortest_path fuel garbage cost = Ok (map pos l) /\
      mono_path cost l (h - 1, w - 1) c /\
      (forall l' c', mono_path cost l' (h - 1, w - 1) c' -> fleb c c' = true).
  Proof.
    intro Hf. unfold shortest_path.
    destruct (sp_distances_spec garbage) as (dist & E & M & Hopt). rewrite E. simpl.
    assert (Nc : ncols cost = w).
    { destruct Hcost as [Lc Hc]. destruct cost as [|r m]; [simpl in *; lia|]. apply Hc. left; reflexivity. }
    rewrite Nc. destruct Hcost as [Lc _]. rewrite Lc.
    destruct (Hopt (h - 1) (w - 1)) as (c & Ec & Oc); [lia|lia|].
    destruct (@sp_back_spec dist (h - 1, w - 1) c M Hopt fuel (h - 1, w - 1) None []) as (l & El & Pl);
      simpl; try lia.
    - intros l cq Ocq Hl. rewrite app_nil_r. replace c with cq by (eapply optimal_unique; eassumption). exact Hl.
    - exists l, c. split; [|split; [exact Pl|apply Oc]].
      rewrite <- El. unfold pos. simpl. repeat f_equal; lia.
  Qed.
End Path.

(** ** sliding_window_view *)
Lemma dot_app a b c d : length a = length c -> dot (a ++ b) (c ++ d) = (dot a c + dot b d)%Z.
Proof.
  revert c; induction a as [|x a IH]; intros [|y c] H; simpl in *; try discriminate; auto.
  rewrite IH by lia. lia.
Qed.

Lemma existsb_false {T} (f : T -> bool) l : existsb f l = false <-> Forall (fun x => f x = false) l.
Proof.
  induction l; simpl; split; intro H; auto.
  - apply orb_false_iff in H. constructor; tauto.
  - inversion H; subst. apply orb_false_iff. tauto.
Qed.

Lemma dot_window_addr strides : forall step i j, length step = length strides -> length i = length strides ->
  length j = length strides ->
  (dot i (zip_with Z.mul strides step) + dot j strides =
   dot (zip_with Z.add (zip_with Z.mul i step) j) strides)%Z.
Proof.
  induction strides as [|s strides IH]; intros step i j H1 H2 H3; destruct step, i, j; simpl in *; try discriminate; auto.
  specialize (IH step i j). rewrite <- IH by lia. ring.
Qed.

(** Output length along one axis. *)
Definition out_len (n s st : Z) : Z := ((n - s) / st + 1)%Z.

Lemma swv_output_len xs : forall ws st, length ws = length xs -> length st = length xs ->
  zip_with Z.add (zip_with Z.div (zip_with Z.sub xs ws) st) (repeat 1%Z (length xs)) =
  zip_with (fun p s => out_len (fst p) (snd p) s) (combine xs ws) st.
Proof.
  induction xs as [|x xs IH]; intros [|w ws] [|s st] H1 H2; simpl in *; try discriminate; auto.
  f_equal. apply IH; lia.
Qed.

Lemma swv_in_bounds xs : forall ws st i j,
  length ws = length xs -> length st = length xs ->
  Forall (fun s => (s <=? 0)%Z = false) ws -> Forall (fun s => (s <=? 0)%Z = false) st ->
  in_shape i (zip_with (fun p s => out_len (fst p) (snd p) s) (combine xs ws) st) -> in_shape j ws ->
  in_shape (zip_with Z.add (zip_with Z.mul i st) j) xs.
Proof.
  induction xs as [|x xs IH]; intros [|w ws] [|s st] i j H1 H2 Hw Hs Hi Hj; simpl in *; try discriminate.
  - inversion Hi; subst. simpl. constructor.
  - inversion Hi as [|i0 ? i' ? Hi0 Hi']; subst. inversion Hj as [|j0 ? j' ? Hj0 Hj']; subst.
    inversion Hw; subst. inversion Hs; subst. simpl. constructor.
    + unfold out_len in Hi0. assert (0 < s)%Z by lia.
      assert ((x - w) / s * s <= x - w)%Z by (rewrite Z.mul_comm; apply Z.mul_div_le; lia). nia.
    + apply IH with (ws := ws); auto.
Qed.

Lemma swv_maximal n s st : (0 < st)%Z -> (n < out_len n s st * st + s)%Z.
Proof.
  intro H. unfold out_len. assert (E := Z.mul_succ_div_gt (n - s) st H). nia.
Qed.

(** ** Statements for the property file *)
Lemma C06_lemma (A : Type) (NA : NumOps A) (OA : OrdLaws A) (MA : AddMono A)
  (cost : mat (num A)) h w garbage :
  is_mat h w cost -> 0 < h -> 0 < w ->
  (forall p v, entry cost p v -> v <> NaN /\ v <> NInf) ->
  exists dist, shortest_path_distances garbage cost = Ok dist /\ is_mat h w dist /\
    forall i j, i < h -> j < w -> exists c, entry dist (i, j) c /\ optimal cost (i, j) c.
Proof.
  intros M Hh Hw Hv.
  destruct (@sp_distances_spec A NA OA MA cost h w M Hh Hw) with (garbage := garbage) as (dist & E & Md & Hd).
  - intros i j v E. apply mget_ok in E. specialize (Hv (i, j) v E). destruct v; simpl; tauto.
  - exists dist. split; [exact E|]. split; [exact Md|]. intros i j Hi Hj.
    destruct (Hd i j Hi Hj) as (c & Ec & Oc). exists c. split; [|exact Oc]. apply mget_ok in Ec. exact Ec.
Qed.

Lemma C07_lemma (A : Type) (NA : NumOps A) (OA : OrdLaws A) (MA : AddMono A)
  (cost : mat (num A)) h w garbage fuel :
  is_mat h w cost -> 0 < h -> 0 < w ->
  (forall p v, entry cost p v -> exists a, v = Fin a) ->
  h + w <= fuel ->
  exists l c, shortest_path fuel garbage cost =
      Ok (map (fun p => (Z.of_nat (fst p), Z.of_nat (snd p))) l) /\
    mono_path cost l (h - 1, w - 1) c /\
    (forall l' c', mono_path cost l' (h - 1, w - 1) c' -> fleb c c' = true).
Proof.
  intros M Hh Hw Hv Hf.
  destruct (@shortest_path_spec A NA OA MA cost h w M Hh Hw) with (garbage := garbage) (fuel := fuel)
    as (l & c & E & P & Hmin); auto.
  - intros i j v E. apply mget_ok in E. destruct (Hv (i, j) v E) as (a & ->). exact I.
  - intros i j v E. apply mget_ok in E. destruct (Hv (i, j) v E) as (a & ->). reflexivity.
  - exists l, c. auto.
Qed.

Lemma zip_out_nth xs : forall ws st k n s t o,
  nth_error xs k = Some n -> nth_error ws k = Some s -> nth_error st k = Some t ->
  nth_error (zip_with (fun p s => out_len (fst p) (snd p) s) (combine xs ws) st) k = Some o ->
  o = out_len n s t.
Proof.
  induction xs as [|x xs IH]; intros [|w ws] [|t' st] [|k] n s t o H1 H2 H3 H4; simpl in *; try discriminate.
  - congruence.
  - eapply IH; eauto.
Qed.

Lemma repeat1_pos n : Forall (fun s => (s <=? 0)%Z = false) (repeat 1%Z n).
Proof. induction n; simpl; constructor; auto. Qed.

Lemma Forall_lt l : Forall (fun s => (s <=? 0)%Z = false) l <-> Forall (fun s => 0 < s)%Z l.
Proof. split; intro H; eapply Forall_impl; try exact H; simpl; intros; lia. Qed.

Lemma out_pos xs : forall ws st, length ws = length xs -> length st = length xs ->
  Forall (fun s => 0 < s)%Z st ->
  Forall (fun k => (k <=? 0)%Z = false)
    (zip_with (fun p s => out_len (fst p) (snd p) s) (combine xs ws) st) <->
  Forall2 (fun s n => s <= n)%Z ws xs.
Proof.
  induction xs as [|x xs IH]; intros [|w ws] [|t st] H1 H2 Hs; simpl in *; try discriminate.
  - split; constructor.
  - inversion Hs; subst. specialize (IH ws st).
    assert (E : (out_len x w t <=? 0)%Z = false <-> (w <= x)%Z).
    { unfold out_len. split; intro H.
      - assert (0 <= (x - w) / t)%Z by lia. destruct (Z.le_gt_cases w x); [assumption|].
        assert ((x - w) / t < 0)%Z by (apply Z.div_lt_upper_bound; lia). lia.
      - assert (0 <= (x - w) / t)%Z by (apply Z.div_pos; lia). lia. }
    split; intro H; inversion H; subst; constructor.
    + apply E; assumption.
    + apply IH; auto.
    + apply E; assumption.
    + apply IH; auto.
Qed.

Lemma swv_ok_iff x shape step :
  (is_ok (sliding_window_view x shape step) = true <->
   length shape = length (nd_shape x) /\ Forall (fun s => 0 < s)%Z shape /\
   length (steps_of x step) = length (nd_shape x) /\ Forall (fun s => 0 < s)%Z (steps_of x step) /\
   Forall2 (fun s n => s <= n)%Z shape (nd_shape x)) /\
  (is_ok (sliding_window_view x shape step) = false -> sliding_window_view x shape step = Err ValueError) /\
  (forall v, sliding_window_view x shape step = Ok v ->
     v = mkNd (nd_base x)
       (zip_with (fun p s => out_len (fst p) (snd p) s) (combine (nd_shape x) shape) (steps_of x step) ++ shape)
       (zip_with Z.mul (nd_strides x) (steps_of x step) ++ nd_strides x)).
Proof.
  unfold sliding_window_view.
  destruct (Nat.eqb_spec (length (nd_shape x)) (length shape)) as [Hl|Hl]; simpl negb; cbn [negb].
  2:{ split; [|split; [auto|discriminate]]. split; [discriminate|]. intros (H & _). congruence. }
  destruct (existsb (fun s => (s <=? 0)%Z) shape) eqn:E1.
  { split; [|split; [auto|discriminate]]. split; [discriminate|]. intros (_ & H & _).
    apply Forall_lt in H. apply existsb_false in H. congruence. }
  apply existsb_false, Forall_lt in E1.
  assert (G : forall st, length st = length (nd_shape x) -> Forall (fun s => 0 < s)%Z st ->
    steps_of x step = st ->
    let r := let o := zip_with Z.add (zip_with Z.div (zip_with Z.sub (nd_shape x) shape) st)
               (repeat 1%Z (length (nd_shape x))) in
      if existsb (fun k => (k <=? 0)%Z) o then Err ValueError
      else Ok (mkNd (nd_base x) (o ++ shape) (zip_with Z.mul (nd_strides x) st ++ nd_strides x)) in
    (is_ok r = true <->
     length shape = length (nd_shape x) /\ Forall (fun s => 0 < s)%Z shape /\
     length (steps_of x step) = length (nd_shape x) /\ Forall (fun s => 0 < s)%Z (steps_of x step) /\
     Forall2 (fun s n => s <= n)%Z shape (nd_shape x)) /\
    (is_ok r = false -> r = Err ValueError) /\
    (forall v, r = Ok v ->
     v = mkNd (nd_base x)
       (zip_with (fun p s => out_len (fst p) (snd p) s) (combine (nd_shape x) shape) (steps_of x step) ++ shape)
       (zip_with Z.mul (nd_strides x) (steps_of x step) ++ nd_strides x))).
  { intros st Ls Ps Es. rewrite Es. rewrite swv_output_len by lia. cbv zeta.
    destruct (existsb _ (zip_with (fun p s => out_len (fst p) (snd p) s) (combine (nd_shape x) shape) st)) eqn:E2.
    - split; [|split; [auto|discriminate]]. split; [discriminate|].
      intros (_ & _ & _ & _ & H). apply out_pos with (st := st) in H; auto; try lia.
      apply existsb_false in H. congruence.
    - split; [|split; [discriminate|congruence]]. split; [intros _|reflexivity].
      split; [lia|]. split; [exact E1|]. split; [exact Ls|]. split; [exact Ps|].
      apply existsb_false in E2. apply out_pos in E2; auto; lia. }
  destruct step as [st|].
  - destruct (Nat.eqb_spec (length (nd_shape x)) (length st)) as [Hs|Hs]; cbn [negb].
    2:{ cbn [bind]. split; [|split; [auto|discriminate]]. split; [discriminate|].
        intros (_ & _ & H & _). simpl in H. congruence. }
    destruct (existsb (fun s => (s <=? 0)%Z) st) eqn:E2.
    { cbn [bind]. split; [|split; [auto|discriminate]]. split; [discriminate|].
      intros (_ & _ & _ & H & _). simpl in H. apply Forall_lt in H. apply existsb_false in H. congruence. }
    apply existsb_false, Forall_lt in E2. cbn [bind]. apply (G st); auto.
  - cbn [bind]. apply (G (repeat 1%Z (length (nd_shape x)))); auto.
    + apply repeat_length.
    + apply Forall_lt, repeat1_pos.
Qed.

Lemma in_shape_length i s : in_shape i s -> length i = length s.
Proof. induction 1; simpl; congruence. Qed.

Lemma C08_lemma x shape step v :
  length (nd_strides x) = length (nd_shape x) ->
  sliding_window_view x shape step = Ok v ->
  exists o, nd_shape v = o ++ shape /\ length o = length (nd_shape x) /\
    (forall k n s t ok, nth_error (nd_shape x) k = Some n -> nth_error shape k = Some s ->
       nth_error (steps_of x step) k = Some t -> nth_error o k = Some ok ->
       (ok = (n - s) / t + 1 /\ (ok - 1) * t + s <= n < ok * t + s)%Z) /\
    (forall i j, in_shape i o -> in_shape j shape ->
       let src := zip_with Z.add (zip_with Z.mul i (steps_of x step)) j in
       in_shape src (nd_shape x) /\ nd_addr v (i ++ j) = nd_addr x src).
Proof.
  intros Hst E. destruct (swv_ok_iff x shape step) as (H1 & _ & H3).
  rewrite E in H1. destruct (proj1 H1 eq_refl) as (L1 & P1 & L2 & P2 & F). specialize (H3 v E). subst v.
  set (o := zip_with (fun p s => out_len (fst p) (snd p) s) (combine (nd_shape x) shape) (steps_of x step)).
  assert (Lo : length o = length (nd_shape x)).
  { unfold o. rewrite length_zip_with, combine_length. lia. }
  exists o. split; [reflexivity|]. split; [exact Lo|]. split.
  - intros k n s t ok Hn Hs Ht Ho.
    assert (ok = out_len n s t) as -> by (eapply zip_out_nth; eauto).
    assert (Pt : (0 < t)%Z) by (rewrite Forall_forall in P2; apply P2; eapply nth_error_In; eassumption).
    split; [reflexivity|]. split; [|apply swv_maximal; exact Pt].
    unfold out_len. assert (t * ((n - s) / t) <= n - s)%Z by (apply Z.mul_div_le; lia). nia.
  - intros i j Hi Hj src. split.
    + apply swv_in_bounds with (ws := shape); auto; apply Forall_lt; assumption.
    + unfold nd_addr. simpl.
      assert (Li : length i = length (nd_shape x)) by (apply in_shape_length in Hi; lia).
      assert (Lj : length j = length (nd_shape x)) by (apply in_shape_length in Hj; lia).
      rewrite dot_app by (rewrite length_zip_with; lia).
      rewrite dot_window_addr by lia. reflexivity.
Qed.

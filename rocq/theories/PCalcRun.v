(** * PCalcRun: the cells and calls of complete calculations *)
From Coq Require Import QArith Permutation.
From Verif Require Import Np NpFacts Mat MUtil SLog PLog PSort PMulti MCalc SCalc PCalc.
Set Implicit Arguments.
Open Scope nat_scope.

(** ** Cells of diagonals *)
Lemma NoDup_flat_map {U V} (f : U -> list V) l : NoDup l -> (forall d, In d l -> NoDup (f d)) ->
  (forall d d' x, In d l -> In d' l -> In x (f d) -> In x (f d') -> d = d') -> NoDup (flat_map f l).
Proof.
  induction 1 as [|d l Hd Hl IH]; intros H1 H2; [constructor|]. cbn [flat_map]. apply nodup_app.
  - apply H1. left. reflexivity.
  - apply IH; [intros; apply H1; right; assumption|intros; eapply H2; eauto; right; assumption].
  - intros x Hx Hx'. apply in_flat_map in Hx. destruct Hx as (d' & Hd' & Hx). apply Hd.
    rewrite (H2 d d' x); auto; [left; reflexivity|right; exact Hd'].
Qed.

Lemma NoDup_mapi {U V W} (f : nat -> U -> V) (g : V -> W) (l : list U) : (forall i j x y, g (f i x) = g (f j y) -> i = j) -> NoDup (mapi f l).
Proof.
  intro H. apply NoDup_nth_error. intros i j Hi E. rewrite length_mapi in Hi. rewrite !nth_error_mapi in E.
  destruct (@nth_error_lt_some _ l i Hi) as [x Hx]. rewrite Hx in E. cbn [option_map] in E. destruct (nth_error l j) as [y|]; [|discriminate].
  injection E as E. apply (H i j x y). rewrite E. reflexivity.
Qed.

Lemma diag_cells_nodup {T} qs ss d (vals : list T) : NoDup (diag_cells qs ss d vals).
Proof. unfold diag_cells. apply (@NoDup_mapi _ _ _ _ (fun x => fst (fst x))). cbn [fst]. intros; lia. Qed.

Lemma in_diag_of {T} (D : Z -> Z -> T) h w d r c v : (- Z.of_nat h < d < Z.of_nat w)%Z ->
  In (r, c, v) (diag_cells 0 0 d (diag_of D h w d)) <-> (0 <= r < Z.of_nat h /\ 0 <= c < Z.of_nat w /\ c - r = d /\ v = D r c)%Z.
Proof.
  intro Hd. unfold diag_cells. rewrite in_mapi. split.
  - intros (k & x & Hk & E). injection E as E1 E2 E3. subst x. unfold diag_of in Hk. rewrite nth_error_map, nth_error_seq in Hk.
    destruct (Nat.ltb_spec k (Z.to_nat (dlen h w d))) as [Hl|]; [|discriminate]. injection Hk as E3. unfold dlen in Hl.
    split; [lia|]. split; [lia|]. split; [lia|]. rewrite <- E3. f_equal; lia.
  - intros (Hr & Hc & Hdiff & ->). exists (Z.to_nat (Z.min r c)), (D r c). split.
    + unfold diag_of. rewrite nth_error_map, nth_error_seq. destruct (Nat.ltb_spec (Z.to_nat (Z.min r c)) (Z.to_nat (dlen h w d))) as [Hl|Hl]; unfold dlen in Hl; [|lia].
      cbn [option_map]. f_equal. f_equal; lia.
    + f_equal; f_equal; lia.
Qed.

Lemma in_diag_mirror {T} (D : Z -> Z -> T) n d r c v : (0 <= d < Z.of_nat n)%Z ->
  In (r, c, v) (diag_cells 0 0 (- d) (diag_of D n n d)) <-> (0 <= r < Z.of_nat n /\ 0 <= c < Z.of_nat n /\ r - c = d /\ v = D c r)%Z.
Proof.
  intro Hd. unfold diag_cells. rewrite in_mapi. split.
  - intros (k & x & Hk & E). injection E as E1 E2 E3. subst x. unfold diag_of in Hk. rewrite nth_error_map, nth_error_seq in Hk.
    destruct (Nat.ltb_spec k (Z.to_nat (dlen n n d))) as [Hl|]; [|discriminate]. injection Hk as E3. unfold dlen in Hl.
    split; [lia|]. split; [lia|]. split; [lia|]. rewrite <- E3. f_equal; lia.
  - intros (Hr & Hc & Hdiff & ->). exists (Z.to_nat c), (D c r). split.
    + unfold diag_of. rewrite nth_error_map, nth_error_seq. destruct (Nat.ltb_spec (Z.to_nat c) (Z.to_nat (dlen n n d))) as [Hl|Hl]; unfold dlen in Hl; [|lia].
      cbn [option_map]. f_equal. f_equal; lia.
    + f_equal; f_equal; lia.
Qed.

Lemma in_positions h w r c : In (r, c) (positions h w) <-> (0 <= r < Z.of_nat h /\ 0 <= c < Z.of_nat w)%Z.
Proof.
  unfold positions. rewrite in_flat_map. split.
  - intros (i & Hi & H). apply in_seq in Hi. apply in_map_iff in H. destruct H as (j & E & Hj). apply in_seq in Hj. injection E as <- <-. lia.
  - intros [Hr Hc]. exists (Z.to_nat r). split; [apply in_seq; lia|]. apply in_map_iff. exists (Z.to_nat c). split; [f_equal; lia|apply in_seq; lia].
Qed.
Lemma positions_nodup h w : NoDup (positions h w).
Proof.
  unfold positions. apply NoDup_flat_map; [apply seq_NoDup| |].
  - intros r _. apply FinFun.Injective_map_NoDup; [|apply seq_NoDup]. intros a b E. injection E as E. lia.
  - intros d d' x _ _ H1 H2. apply in_map_iff in H1, H2. destruct H1 as (a & <- & _), H2 as (b & E & _). injection E as E _. lia.
Qed.
Lemma cells_nodup {T} (D : Z -> Z -> T) ps : NoDup ps -> NoDup (cells_of D ps).
Proof. intro H. unfold cells_of. apply FinFun.Injective_map_NoDup; [|exact H]. intros [a b] [c d] E. cbn [fst snd] in E. injection E as -> -> _. reflexivity. Qed.
Lemma in_cells {T} (D : Z -> Z -> T) ps r c v : In (r, c, v) (cells_of D ps) <-> In (r, c) ps /\ v = D r c.
Proof.
  unfold cells_of. rewrite in_map_iff. split.
  - intros ([a b] & E & H). cbn [fst snd] in E. injection E as -> -> <-. auto.
  - intros [H ->]. exists (r, c). auto.
Qed.

Lemma log_no_shift {T} (es : list (event T)) : Forall no_shift es -> log es = flat_map (event_cells 0 0) es.
Proof.
  unfold log. induction 1 as [|e es He _ IH]; [reflexivity|]. cbn [log_from flat_map]. f_equal. destruct e; cbn [event_qshift event_sshift Z.add] in *; try exact IH; destruct He.
Qed.

Lemma firstn1_skipn {T} (l : list T) i x : nth_error l i = Some x -> firstn 1 (skipn i l) = [x].
Proof. revert i. induction l as [|y l IH]; intros [|i] H; try discriminate; [injection H as ->; reflexivity|]. apply IH, H. Qed.

Section Cells.
  Context {A : Type}.
  Notation num := (Np.num A).

  Lemma diag_log (F : nat -> Z -> list num) self ds ids i id : nth_error ids i = Some id ->
    log (map (channel i) (diagonal_calls F self ds ids)) = flat_map (fun d => diag_cells 0 0 d (F id d) ++ if self then diag_cells 0 0 (- d) (F id d) else []) ds.
  Proof.
    intro Hi. assert (Hv : forall d, firstn 1 (skipn i (map (fun j => F j d) ids)) = [F id d]) by (intro d; apply firstn1_skipn; rewrite nth_error_map, Hi; reflexivity).
    rewrite log_no_shift.
    - induction ds as [|d ds IH]; [reflexivity|]. unfold diagonal_calls in *. cbn [flat_map]. rewrite map_app, flat_map_app, IH. f_equal. cbn [map channel]. cbn [flat_map]. rewrite Hv. cbn [event_cells].
      destruct self; cbn [map channel flat_map]; [|reflexivity]. rewrite Hv. cbn [event_cells]. rewrite app_nil_r. reflexivity.
    - apply Forall_forall. intros e He. apply in_map_iff in He. destruct He as (e0 & <- & He). unfold diagonal_calls in He. apply in_flat_map in He. destruct He as (d & _ & [<-|He]); [exact I|].
      destruct self; [destruct He as [<-|[]]; exact I|destruct He].
  Qed.

  Lemma join_cells (D : Z -> Z -> num) h w ds : Permutation ds (pyrange (- Z.of_nat h + 1) (Z.of_nat w)) ->
    Permutation (flat_map (fun d => diag_cells 0 0 d (diag_of D h w d) ++ []) ds) (cells_of D (positions h w)).
  Proof.
    intro HP. assert (Hin : forall d, In d ds <-> (- Z.of_nat h < d < Z.of_nat w)%Z).
    { intro d. split; intro H.
      - apply (Permutation_in _ HP) in H. unfold pyrange, arange in H. apply in_map_iff in H. destruct H as (k & <- & Hk). apply in_seq in Hk. lia.
      - apply (Permutation_in _ (Permutation_sym HP)). unfold pyrange, arange. apply in_map_iff. exists (Z.to_nat (d + Z.of_nat h - 1)). split; [lia|apply in_seq; lia]. }
    assert (HN : NoDup ds).
    { apply (Permutation_NoDup (Permutation_sym HP)). unfold pyrange, arange. apply FinFun.Injective_map_NoDup; [intros a b E; lia|apply seq_NoDup]. }
    apply NoDup_Permutation.
    - apply NoDup_flat_map; [exact HN| |].
      + intros d _. rewrite app_nil_r. apply diag_cells_nodup.
      + intros d d' [[r c] v] H H' Hx Hx'. rewrite app_nil_r in Hx, Hx'. apply Hin in H, H'. apply (in_diag_of D h w r c v H) in Hx. apply (in_diag_of D h w r c v H') in Hx'. lia.
    - apply cells_nodup, positions_nodup.
    - intros [[r c] v]. rewrite in_cells, in_positions, in_flat_map. split.
      + intros (d & Hd & Hx). rewrite app_nil_r in Hx. apply Hin in Hd. apply (in_diag_of D h w r c v Hd) in Hx. tauto.
      + intros ((Hr & Hc) & ->). exists (c - r)%Z. rewrite app_nil_r. assert (Hd : (- Z.of_nat h < c - r < Z.of_nat w)%Z) by lia. split; [apply Hin; exact Hd|]. apply (in_diag_of D h w r c _ Hd). auto.
  Qed.

  Lemma self_cells (D : Z -> Z -> num) n b ds : (0 <= b)%Z -> Permutation ds (pyrange (b + 1) (Z.of_nat n)) ->
    Permutation (flat_map (fun d => diag_cells 0 0 d (diag_of D n n d) ++ diag_cells 0 0 (- d) (diag_of D n n d)) ds) (cells_of (mirror D) (filter (far b) (positions n n))).
  Proof.
    intros Hb HP. assert (Hin : forall d, In d ds <-> (b < d < Z.of_nat n)%Z).
    { intro d. split; intro H.
      - apply (Permutation_in _ HP) in H. unfold pyrange, arange in H. apply in_map_iff in H. destruct H as (k & <- & Hk). apply in_seq in Hk. lia.
      - apply (Permutation_in _ (Permutation_sym HP)). unfold pyrange, arange. apply in_map_iff. exists (Z.to_nat (d - b - 1)). split; [lia|apply in_seq; lia]. }
    assert (HN : NoDup ds).
    { apply (Permutation_NoDup (Permutation_sym HP)). unfold pyrange, arange. apply FinFun.Injective_map_NoDup; [intros a c E; lia|apply seq_NoDup]. }
    assert (Hx : forall d r c v, In d ds -> In (r, c, v) (diag_cells 0 0 d (diag_of D n n d) ++ diag_cells 0 0 (- d) (diag_of D n n d)) <->
       (0 <= r < Z.of_nat n /\ 0 <= c < Z.of_nat n /\ Z.abs (r - c) = d /\ v = mirror D r c)%Z).
    { intros d r c v Hd. apply Hin in Hd. rewrite in_app_iff, in_diag_of, in_diag_mirror by lia. unfold mirror. destruct (Z.leb_spec r c); split.
      - intros [(H1 & H2 & H3 & H4)|(H1 & H2 & H3 & H4)]; [|lia]. repeat split; try lia. exact H4.
      - intros (H1 & H2 & H3 & H4). left. repeat split; try lia. exact H4.
      - intros [(H1 & H2 & H3 & H4)|(H1 & H2 & H3 & H4)]; [lia|]. repeat split; try lia. exact H4.
      - intros (H1 & H2 & H3 & H4). right. repeat split; try lia. exact H4. }
    apply NoDup_Permutation.
    - apply NoDup_flat_map; [exact HN| |].
      + intros d Hd. apply Hin in Hd. apply nodup_app; [apply diag_cells_nodup|apply diag_cells_nodup|].
        intros [[r c] v] H1 H2. apply in_diag_of in H2; [|lia]. apply in_diag_mirror in H1; lia.
      + intros d d' [[r c] v] H H' H1 H2. apply Hx in H1; [|exact H]. apply Hx in H2; [|exact H']. lia.
    - apply cells_nodup, NoDup_filter, positions_nodup.
    - intros [[r c] v]. rewrite in_cells, filter_In, in_positions, in_flat_map. unfold far. cbn [fst snd]. rewrite Z.ltb_lt. split.
      + intros (d & Hd & H). apply Hx in H; [|exact Hd]. apply Hin in Hd. destruct H as (H1 & H2 & H3 & H4). repeat split; try lia. exact H4.
      + intros (((Hr & Hc) & Hf) & ->). exists (Z.abs (r - c)). assert (Hd : In (Z.abs (r - c)) ds) by (apply Hin; lia). split; [exact Hd|]. apply Hx; auto.
  Qed.
End Cells.

(** ** Sizes *)
Lemma dlen_length h w d : (- Z.of_nat h < d < Z.of_nat w)%Z -> diag_length (Z.of_nat h) (Z.of_nat w) d = dlen h w d.
Proof. intro H. unfold diag_length, dlen. destruct (Z.leb_spec 0 d); lia. Qed.
Lemma dlen_pos h w d : (- Z.of_nat h < d < Z.of_nat w)%Z -> 0 < h -> 0 < w -> (0 < dlen h w d)%Z.
Proof. intros. unfold dlen. lia. Qed.
Lemma size_app h w a b : size h w (a ++ b) = (size h w a + size h w b)%Z.
Proof. unfold size. induction a as [|x a IH]; cbn [app map fold_right] in *; lia. Qed.
Lemma size_perm h w a b : Permutation a b -> size h w a = size h w b.
Proof. induction 1; unfold size in *; cbn [map fold_right] in *; lia. Qed.

Lemma pyrange_S a b : (a < b)%Z -> pyrange a b = a :: pyrange (a + 1) b.
Proof.
  intro H. unfold pyrange, arange. replace (Z.to_nat (b - a)) with (S (Z.to_nat (b - (a + 1)))) by lia. cbn [seq map]. f_equal; [lia|].
  rewrite <- seq_shift, map_map. apply map_ext. intro. lia.
Qed.
Lemma pyrange_nil a b : (b <= a)%Z -> pyrange a b = [].
Proof. intro H. unfold pyrange. replace (Z.to_nat (b - a)) with 0 by lia. reflexivity. Qed.

Lemma size_self n b : (-1 <= b < Z.of_nat n)%Z -> (2 * size n n (pyrange (b + 1) (Z.of_nat n)) = (Z.of_nat n - b - 1) * (Z.of_nat n - b))%Z.
Proof.
  intro H. remember (Z.to_nat (Z.of_nat n - b - 1)) as t eqn:Et. revert b H Et. induction t as [|t IH]; intros b H Et.
  - rewrite pyrange_nil by lia. cbn. replace (Z.of_nat n - b - 1)%Z with 0%Z by lia. reflexivity.
  - rewrite pyrange_S by lia. change (size n n ((b + 1)%Z :: pyrange (b + 1 + 1) (Z.of_nat n))) with (dlen n n (b + 1) + size n n (pyrange (b + 1 + 1) (Z.of_nat n)))%Z.
    specialize (IH (b + 1)%Z ltac:(lia) ltac:(lia)). assert (E : dlen n n (b + 1) = (Z.of_nat n - (b + 1))%Z) by (unfold dlen; lia). rewrite E. nia.
Qed.

Lemma flat_map_length_size {U} (f : Z -> list U) h w ds : (forall d, In d ds -> Z.of_nat (length (f d)) = dlen h w d) -> Z.of_nat (length (flat_map f ds)) = size h w ds.
Proof.
  induction ds as [|d ds IH]; intro H; [reflexivity|]. cbn [flat_map]. rewrite app_length, Nat2Z.inj_add, IH by (intros; apply H; right; assumption). rewrite H by (left; reflexivity). reflexivity.
Qed.
Lemma positions_length h w : length (positions h w) = h * w.
Proof.
  unfold positions. assert (E : forall l, length (flat_map (fun r => map (fun c => (Z.of_nat r, Z.of_nat c)) (seq 0 w)) l) = length l * w).
  { induction l as [|x l IH]; [reflexivity|]. cbn [flat_map length]. rewrite app_length, map_length, seq_length, IH. lia. }
  rewrite E, seq_length. reflexivity.
Qed.
Lemma size_join h w : size h w (pyrange (- Z.of_nat h + 1) (Z.of_nat w)) = (Z.of_nat h * Z.of_nat w)%Z.
Proof.
  set (ds := pyrange (- Z.of_nat h + 1) (Z.of_nat w)).
  assert (Hin : forall d, In d ds -> (- Z.of_nat h < d < Z.of_nat w)%Z).
  { intros d Hd. unfold ds, pyrange, arange in Hd. apply in_map_iff in Hd. destruct Hd as (k & <- & Hk). apply in_seq in Hk. lia. }
  rewrite <- (flat_map_length_size (fun d => diag_cells 0 0 d (diag_of (fun _ _ => @NaN Z) h w d) ++ [])).
  - rewrite (Permutation_length (join_cells (fun _ _ => @NaN Z) h w (Permutation_refl ds))). unfold cells_of. rewrite map_length, positions_length. lia.
  - intros d Hd. apply Hin in Hd. rewrite app_nil_r. unfold diag_cells. rewrite length_mapi. unfold diag_of. rewrite map_length, seq_length. unfold dlen. lia.
Qed.

(** ** AnytimeCalculator *)
Section Anytime.
  Context {A : Type}.
  Notation num := (Np.num A).
  Variables (X G C : Type).

  Record fresh (self : bool) (h w : nat) (b : Z) (a : any X G C) : Prop := {
    fr_self : ca_self (an_calc a) = self;
    fr_ns : ca_ns (an_calc a) = Z.of_nat w;
    fr_nq : ca_nq (an_calc a) = Z.of_nat h;
    fr_tmb : ca_tmb (an_calc a) = b;
    fr_b : (-1 <= b)%Z;
    fr_last : ca_last (an_calc a) = (-1)%Z;
    fr_next : an_next a = 0;
    fr_done : an_done a = 0%Z;
    fr_total : an_total a = size h w (an_order a);
    fr_order : forall d, In d (an_order a) -> (- Z.of_nat h < d < Z.of_nat w)%Z
  }.

  Lemma in_pyrange a b d : In d (pyrange a b) <-> (a <= d < b)%Z.
  Proof.
    unfold pyrange, arange. rewrite in_map_iff. split.
    - intros (k & <- & Hk). apply in_seq in Hk. lia.
    - intro H. exists (Z.to_nat (d - a)). split; [lia|]. apply in_seq. lia.
  Qed.

  Lemma any_new_join shuffle m (series q : list (list X)) buffer h w (a : any X G C) : (forall l, Permutation (shuffle l) l) ->
    any_new G C shuffle m series (Some q) buffer = Ok a ->
    Z.of_nat w = (Z.of_nat (length (hd [] series)) - m + 1)%Z -> Z.of_nat h = (Z.of_nat (length (hd [] q)) - m + 1)%Z ->
    fresh false h w (-1) a /\ Permutation (an_order a) (pyrange (- Z.of_nat h + 1) (Z.of_nat w)).
  Proof.
    intros HS E Hw Hh. unfold any_new in E. destruct (negb _); [discriminate|]. cbn [ca_new bind] in E. injection E as <-. rewrite <- Hw, <- Hh.
    split; [|apply HS]. constructor; cbn [an_calc an_order an_total an_next an_done ca_self ca_ns ca_nq ca_tmb ca_last]; try reflexivity; try lia.
    - rewrite (size_perm h w (HS _)). rewrite size_join. lia.
    - intros d Hd. apply (Permutation_in _ (HS _)), in_pyrange in Hd. lia.
  Qed.

  Lemma any_new_self shuffle m (series : list (list X)) buffer n (a : any X G C) : (forall l, Permutation (shuffle l) l) ->
    any_new G C shuffle m series None buffer = Ok a -> Z.of_nat n = (Z.of_nat (length (hd [] series)) - m + 1)%Z ->
    let b := match buffer with None => Z.div m 2 | Some b => b end in
    (b < Z.of_nat n)%Z /\ fresh true n n b a /\ Permutation (an_order a) (pyrange (b + 1) (Z.of_nat n)).
  Proof.
    intros HS E Hn b. unfold any_new in E. destruct (negb _); [discriminate|]. cbn [ca_new] in E. fold b in E. rewrite <- Hn in E.
    destruct ((-1 <=? b)%Z && (b <? Z.of_nat n)%Z) eqn:Eb; [|discriminate]. apply andb_true_iff in Eb. destruct Eb as [B1 B2]. apply Z.leb_le in B1. apply Z.ltb_lt in B2.
    cbn [bind ca_ns ca_tmb] in E. injection E as <-. split; [exact B2|]. split; [|apply HS]. constructor; cbn [an_calc an_order an_total an_next an_done ca_self ca_ns ca_nq ca_tmb ca_last]; try reflexivity; try lia.
    - rewrite (size_perm n n (HS _)). pose proof (size_self n (conj B1 B2)) as X2.
      replace (Z.of_nat n - b - 1 + 1)%Z with (Z.of_nat n - b)%Z by lia. rewrite <- X2. rewrite Z.mul_comm. apply Z.div_mul. lia.
    - intros d Hd. apply (Permutation_in _ (HS _)), in_pyrange in Hd. lia.
  Qed.

  Variable g_diag : G -> Z -> res (G * list num).
  Variable c_step : C -> event num -> res C.
  Variable set_order : list nat -> list nat.
  Hypothesis HSO : orders_sets set_order.

  Section Diag.
    Variables (self : bool) (h w : nat) (b : Z) (a : any X G C).
    Hypothesis Hf : fresh self h w b a.
    Hypothesis Hh : 0 < h.
    Hypothesis Hw : 0 < w.
    Variables (I : nat -> G -> Prop) (F : nat -> Z -> list num).
    Hypothesis HG : gives g_diag I F (fun d => - Z.of_nat h < d < Z.of_nat w)%Z (fun d => Z.to_nat (dlen h w d)).
    Hypothesis HI : ids_ok (ca_gens (an_calc a)) (ca_cons (an_calc a)).
    Hypothesis HG0 : gens_ok I (ca_gens (an_calc a)).

    Notation calls ds := (diagonal_calls F self ds).
    Notation cdiag := (calculate_diagonals g_diag c_step set_order).

    Definition reach (ds : list Z) (a' : any X G C) : Prop :=
      same_any a a' /\ gens_ok I (ca_gens (an_calc a')) /\ map snd (ca_gens (an_calc a')) = map snd (ca_gens (an_calc a)) /\ map snd (ca_cons (an_calc a')) = map snd (ca_cons (an_calc a)) /\
      ds = firstn (an_next a') (an_order a) /\ an_next a' <= length (an_order a) /\ an_done a' = size h w ds /\ receive c_step (calls ds) (ca_cons (an_calc a)) (ca_cons (an_calc a')).

    Lemma reach_fresh : reach [] a.
    Proof.
      split; [repeat split|]. do 3 (split; [auto|]). split; [rewrite (fr_next Hf); reflexivity|]. split; [rewrite (fr_next Hf); lia|]. split; [rewrite (fr_done Hf); reflexivity|].
      apply receive_nil; reflexivity.
    Qed.

    Lemma size_done a' k : same_any a a' -> done_after a' k = size h w (firstn k (an_order a)).
    Proof.
      intros ((_ & _ & _ & E1 & E2 & _) & _ & _ & E3 & _). unfold done_after. rewrite E1, E2, E3, (fr_ns Hf), (fr_nq Hf). unfold size, sumz. f_equal. apply map_ext_in.
      intros d Hd. apply dlen_length. apply (fr_order Hf). eapply in_firstn; exact Hd.
    Qed.

    Lemma size_firstn_mono k k' : k < k' -> k' <= length (an_order a) -> (size h w (firstn k (an_order a)) < size h w (firstn k' (an_order a)))%Z.
    Proof.
      intros H1 H2. rewrite <- (firstn_skipn k (firstn k' (an_order a))). rewrite firstn_firstn, Nat.min_l by lia. rewrite size_app.
      enough (0 < size h w (skipn k (firstn k' (an_order a))))%Z by lia.
      assert (Hp : forall l, (forall d, In d l -> In d (an_order a)) -> l <> [] -> (0 < size h w l)%Z).
      { induction l as [|d l IH]; intros Hl Hn; [congruence|]. unfold size. cbn [map fold_right]. fold (size h w l).
        assert (0 < dlen h w d)%Z by (apply dlen_pos; auto; apply (fr_order Hf), Hl; left; reflexivity).
        destruct l as [|d' l]; [cbn; lia|]. specialize (IH ltac:(intros; apply Hl; right; assumption) ltac:(discriminate)). lia. }
      apply Hp.
      - intros d Hd. assert (Hd' : In d (firstn k' (an_order a))) by (rewrite <- (firstn_skipn k (firstn k' (an_order a))); apply in_or_app; right; exact Hd). eapply in_firstn; exact Hd'.
      - intro E. apply (f_equal (@length _)) in E. rewrite skipn_length, firstn_length in E. cbn [length] in E. lia.
    Qed.

    (** One more call *)
    Lemma diag_call ds a1 intr partial v : reach ds a1 -> resolves partial (size h w (an_order a)) (size h w (an_order a)) v ->
      exists new rest, an_order a = ds ++ new ++ rest /\
        (forall a2, cdiag intr a1 partial = Ok a2 -> reach (ds ++ new) a2 /\ receive c_step (calls new) (ca_cons (an_calc a1)) (ca_cons (an_calc a2))) /\
        (forall cns, receive c_step (calls new) (ca_cons (an_calc a1)) cns -> exists a2, cdiag intr a1 partial = Ok a2 /\ ca_cons (an_calc a2) = cns) /\
        (forall i, i < length new -> intr i = false /\ (size h w (ds ++ firstn i new) < v)%Z) /\
        (intr (length new) = true \/ (v <= size h w (ds ++ new))%Z).
    Proof.
      intros (R1 & R2 & R3 & R4 & R5 & R6 & R7 & R8) Hv. pose proof R1 as ((C1 & C2 & C3 & C4 & C5 & C6) & S1 & S2 & S3 & S4 & S5).
      assert (Hvle : (v <= size h w (an_order a))%Z) by (destruct partial as [z|[| |x|]|]; cbn [resolves] in Hv; [lia|destruct Hv|destruct Hv| |destruct Hv|destruct Hv]; destruct Hv as (_ & _ & k & _ & _ & ->); lia).
      destruct (@enough_exists X G C (Z.of_nat h) (Z.of_nat w) a1 ltac:(rewrite S3; exact (fr_order Hf)) v (an_next a1)) as (K & HE).
      { rewrite S3. exact R6. } { rewrite (size_done _ R1), S3, firstn_all. exact Hvle. }
      destruct (runs_exists intr (K - an_next a1)) as (n & HR).
      pose proof HE as ((E1 & E1') & E2 & E3). pose proof HR as (U1 & U2 & U3). rewrite S3 in E1'.
      assert (Hpref : forall j, an_next a1 + j <= length (an_order a) -> ds ++ firstn j (skipn (an_next a1) (an_order a)) = firstn (an_next a1 + j) (an_order a)).
      { intros j Hj. rewrite R5. rewrite <- (firstn_skipn (an_next a1) (firstn (an_next a1 + j) (an_order a))). rewrite firstn_firstn, Nat.min_l by lia. f_equal. rewrite skipn_firstn_comm. f_equal. lia. }
      set (new := firstn n (skipn (an_next a1) (an_order a))).
      assert (Ln : length new = n) by (unfold new; rewrite firstn_length, skipn_length; lia).
      exists new, (skipn n (skipn (an_next a1) (an_order a))). split.
      { unfold new. rewrite firstn_skipn, R5. symmetry. apply firstn_skipn. }
      assert (HG' : gives g_diag I F (fun d => - Z.of_nat h < d < Z.of_nat w)%Z (fun d => Z.to_nat (diag_length (Z.of_nat h) (Z.of_nat w) d))).
      { intros id g d Hg Hd. destruct (HG Hg Hd) as (g' & X1 & X2 & X3). exists g'. rewrite dlen_length by exact Hd. auto. }
      assert (HI1 : ids_ok (ca_gens (an_calc a1)) (ca_cons (an_calc a1))).
      { eapply ids_ok_same; [|exact R4|exact HI]. rewrite <- (map_length snd), R3, map_length. reflexivity. }
      assert (T0 : (0 <= size h w (an_order a))%Z).
      { destruct (Nat.eq_dec (length (an_order a)) 0) as [E0|E0]; [destruct (an_order a); [cbn; lia|discriminate]|]. pose proof (@size_firstn_mono 0 (length (an_order a)) ltac:(lia) (le_n _)) as X1. rewrite firstn_all in X1. cbn in X1. lia. }
      assert (DL := @diagonals_lemma A X G C c_step set_order HSO g_diag I F (Z.of_nat h) (Z.of_nat w) HG' a1).
      rewrite C4, C5, (fr_ns Hf), (fr_nq Hf), S3, S4, (fr_total Hf) in DL.
      specialize (DL eq_refl eq_refl (fr_order Hf) ltac:(lia) HI1 intr partial v K n R2 T0).
      rewrite (size_done _ R1), C1, (fr_self Hf) in DL. specialize (DL ltac:(rewrite R7, R5; reflexivity) Hv HE HR). fold new in DL. destruct DL as [D1 D2]. split; [|split; [|split]].
      - intros a2 Ea. destruct (D1 a2 Ea) as (P1 & P2 & P3 & P4 & P5 & P6 & P7). split; [|exact P7].
        unfold reach. rewrite P5. split.
        { destruct P1 as ((C1' & C2' & C3' & C4' & C5' & C6') & S1' & S2' & S3' & S4' & S5'). repeat split; congruence. }
        split; [exact P2|]. split; [congruence|]. split; [congruence|]. split; [apply Hpref; lia|]. split; [lia|]. split.
        { rewrite P6, (size_done _ R1). unfold new. rewrite Hpref by lia. reflexivity. }
        eapply receive_ext; [|apply receive_app; exists (ca_cons (an_calc a1)); split; [exact R8|exact P7]]. intros c ids _. unfold diagonal_calls. rewrite flat_map_app. reflexivity.
      - exact D2.
      - intros i Hi. rewrite Ln in Hi. split; [apply U2; exact Hi|]. unfold new. rewrite firstn_firstn, Nat.min_l by lia. rewrite Hpref by lia. rewrite <- (size_done _ R1). apply E3. lia.
      - rewrite Ln. destruct (Nat.eq_dec n (K - an_next a1)) as [->|Hne]; [right|left; apply U3; lia]. unfold new. rewrite Hpref by lia. replace (an_next a1 + (K - an_next a1)) with K by lia. rewrite <- (size_done _ R1). exact E2.
    Qed.

    Definition diag_run (cs : list ((nat -> bool) * request)) : res (any X G C) := foldM (fun a c => cdiag (fst c) a (snd c)) cs a.

    Lemma diag_resolves ds a1 intr partial a2 : reach ds a1 -> cdiag intr a1 partial = Ok a2 -> exists v, resolves partial (size h w (an_order a)) (size h w (an_order a)) v.
    Proof.
      intros (R1 & _) E. destruct R1 as (_ & _ & _ & S3 & S4 & _). unfold calculate_diagonals in E. destruct (_ <? 0)%Z; [discriminate|]. apply bind_ok in E. destruct E as (v & Ev & _). exists v.
      rewrite S4, (fr_total Hf) in Ev. apply resolves_ok; [|exact Ev].
      destruct (Nat.eq_dec (length (an_order a)) 0) as [E0|E0]; [destruct (an_order a); [cbn; lia|discriminate]|]. pose proof (@size_firstn_mono 0 (length (an_order a)) ltac:(lia) (le_n _)) as X1. rewrite firstn_all in X1. cbn in X1. lia.
    Qed.

    Lemma diag_run_reach cs : forall a', diag_run cs = Ok a' -> exists ds rest, an_order a = ds ++ rest /\ reach ds a'.
    Proof.
      induction cs as [|c cs IH] using rev_ind; intros a' E.
      - injection E as <-. exists [], (an_order a). split; [reflexivity|apply reach_fresh].
      - unfold diag_run in E. rewrite foldM_app in E. apply bind_ok in E. destruct E as (a1 & E1 & E). cbn [foldM] in E. apply bind_ok in E. destruct E as (a2 & E2 & E). injection E as <-.
        destruct (IH a1 E1) as (ds & rest & Ho & HR). destruct (diag_resolves _ _ HR E2) as (v & Hv). destruct (diag_call (fst c) _ _ HR Hv) as (new & rest' & Ho' & D1 & _).
        exists (ds ++ new), rest'. split; [rewrite <- app_assoc; exact Ho'|]. apply D1, E2.
    Qed.

    Lemma reach_one ds a' : reach ds a' -> exists a1, cdiag never a (RInt (size h w ds)) = Ok a1 /\ ca_cons (an_calc a1) = ca_cons (an_calc a').
    Proof.
      intros (R1 & R2 & R3 & R4 & R5 & R6 & R7 & R8).
      assert (Hle : (0 <= size h w ds <= size h w (an_order a))%Z).
      { assert (Hm : forall k, k <= length (an_order a) -> (0 <= size h w (firstn k (an_order a)) <= size h w (an_order a))%Z).
        { intros k Hk. split.
          - destruct (Nat.eq_dec k 0) as [->|]; [cbn; lia|]. pose proof (@size_firstn_mono 0 k ltac:(lia) Hk) as X1. cbn in X1. lia.
          - rewrite <- (firstn_all (an_order a)) at 2. destruct (Nat.eq_dec k (length (an_order a))) as [->|]; [lia|]. pose proof (@size_firstn_mono k (length (an_order a)) ltac:(lia) (le_n _)). lia. }
        rewrite R5. apply Hm, R6. }
      destruct (@diag_call [] a never (RInt (size h w ds)) (size h w ds) reach_fresh ltac:(cbn [resolves]; lia)) as (new & rest & Ho & D1 & D2 & D3 & D4).
      assert (En : new = ds).
      { destruct D4 as [D4|D4]; [discriminate|]. cbn [app] in *. assert (Hnew : new = firstn (length new) (an_order a)) by (rewrite Ho, firstn_app, firstn_all, Nat.sub_diag; cbn [firstn]; rewrite app_nil_r; reflexivity).
        assert (Hlen : length new <= length (an_order a)) by (rewrite Ho, app_length; lia).
        destruct (Nat.lt_trichotomy (length new) (an_next a')) as [Hlt|[Heq|Hgt]].
        - pose proof (size_firstn_mono Hlt R6) as X1. rewrite <- Hnew, <- R5 in X1. lia.
        - rewrite Hnew, R5, Heq. reflexivity.
        - destruct (D3 (an_next a') Hgt) as [_ X1]. rewrite Hnew, firstn_firstn, Nat.min_l, <- R5 in X1 by lia. lia. }
      subst new. destruct (D2 _ R8) as (a1 & E1 & E2). exists a1. auto.
    Qed.

    (** A complete uninterrupted call finishes everything *)
    Lemma reach_full ds a1 a2 : reach ds a1 -> cdiag never a1 (RFloat (Fin 1%Q)) = Ok a2 -> reach (an_order a) a2.
    Proof.
      intros HR E. destruct (diag_resolves _ _ HR E) as (v & Hv). destruct (diag_call never _ _ HR Hv) as (new & rest & Ho & D1 & D2 & D3 & D4).
      destruct (D1 a2 E) as [HR2 _]. destruct D4 as [D4|D4]; [discriminate|].
      assert (Ev : v = size h w (an_order a)).
      { cbn [resolves] in Hv. destruct Hv as (_ & _ & k & K1 & K2 & ->). assert (k = size h w (an_order a)); [|lia]. apply Z.le_antisymm.
        - apply K2. rewrite Qmult_1_l. apply Qle_refl.
        - rewrite Qmult_1_l, <- Zle_Qle in K1. exact K1. }
      destruct rest as [|d rest]; [rewrite app_nil_r in Ho; rewrite Ho; exact HR2|exfalso].
      pose proof HR2 as (_ & _ & _ & _ & Q5 & Q6 & _). assert (Hlt : an_next a2 < length (an_order a)).
      { assert (Hl : length (ds ++ new) = an_next a2) by (rewrite Q5, firstn_length; lia). rewrite <- Hl, Ho, !app_length. cbn [length]. lia. }
      pose proof (size_firstn_mono Hlt (le_n _)) as X1. rewrite firstn_all, <- Q5 in X1. lia.
    Qed.
  End Diag.
End Anytime.

(** ** Columns of an AnytimeCalculator *)
Section Columns.
  Context {A : Type}.
  Notation num := (Np.num A).
  Variables (X G C : Type).
  Variable g_col : G -> nat -> res (G * list num).
  Variable c_step : C -> event num -> res C.
  Variable set_order : list nat -> list nat.
  Hypothesis HSO : orders_sets set_order.
  Variables (I : nat -> G -> Prop) (F : nat -> nat -> list num).

  Definition from_col (s : calc G C) (start : option request) : request := match start with None => RInt (ca_last s + 1) | Some r => r end.

  Lemma calc_columns (s : calc G C) (cols rows : nat) intr start upto c u n : gives g_col I F (fun c => c < cols) (fun _ => rows) ->
    ids_ok (ca_gens s) (ca_cons s) -> gens_ok I (ca_gens s) -> (-1 <= ca_tmb s)%Z -> (0 <= ca_ns s)%Z ->
    resolves (from_col s start) (ca_ns s) (Z.of_nat cols) (Z.of_nat c) -> resolves upto (ca_ns s) (Z.of_nat cols) (Z.of_nat u) -> runs intr n (u - c) ->
    (forall s', calculate_columns g_col c_step set_order (Z.of_nat cols) (Z.of_nat rows) intr s start upto = Ok s' ->
      same_conf s s' /\ gens_ok I (ca_gens s') /\ map snd (ca_gens s') = map snd (ca_gens s) /\
      receive c_step (column_calls F (ca_tmb s) c n) (ca_cons s) (ca_cons s') /\
      ca_last s' = (if n =? 0 then ca_last s else Z.max (ca_last s) (Z.of_nat (c + n) - 1))) /\
    (forall cns, receive c_step (column_calls F (ca_tmb s) c n) (ca_cons s) cns ->
      exists s', calculate_columns g_col c_step set_order (Z.of_nat cols) (Z.of_nat rows) intr s start upto = Ok s' /\ ca_cons s' = cns).
  Proof.
    intros HG HI HG0 Hb Hn Hs Hu Hr.
    assert (L := @columns_lemma A G C c_step set_order HSO g_col (needed set_order s) (fun _ => I) F cols rows).
    specialize (L (fun id g c _ Hg Hc => HG id g c Hg Hc) (fun _ _ _ _ Hg => Hg) s intr start upto c u n eq_refl HI HG0 Hb Hn Hs Hu Hr). destruct L as [L1 L2]. split; [|exact L2].
    intros s' E. destruct (L1 s' E) as ((P1 & P2 & P3 & P4 & P5) & P6). auto.
  Qed.

  Section Run.
    Variables (h w : nat) (a : any X G C).
    Hypothesis Hns : ca_ns (an_calc a) = Z.of_nat w.
    Hypothesis Hnq : ca_nq (an_calc a) = Z.of_nat h.
    Hypothesis Hb : (-1 <= ca_tmb (an_calc a))%Z.
    Hypothesis Hlast : ca_last (an_calc a) = (-1)%Z.
    Hypothesis HG : gives g_col I F (fun c => c < w) (fun _ => h).
    Hypothesis HI : ids_ok (ca_gens (an_calc a)) (ca_cons (an_calc a)).
    Hypothesis HG0 : gens_ok I (ca_gens (an_calc a)).

    Notation ccols := (any_columns g_col c_step set_order).
    Notation calls c n := (column_calls F (ca_tmb (an_calc a)) c n).

    Definition creach (n : nat) (a' : any X G C) : Prop :=
      same_conf (an_calc a) (an_calc a') /\ gens_ok I (ca_gens (an_calc a')) /\ map snd (ca_gens (an_calc a')) = map snd (ca_gens (an_calc a)) /\
      ca_last (an_calc a') = (Z.of_nat n - 1)%Z /\ n <= w /\ receive c_step (calls 0 n) (ca_cons (an_calc a)) (ca_cons (an_calc a')).

    Lemma creach_fresh : creach 0 a.
    Proof. split; [repeat split|]. split; [exact HG0|]. split; [reflexivity|]. split; [rewrite Hlast; reflexivity|]. split; [lia|]. apply receive_nil; reflexivity. Qed.

    Lemma col_call n a1 intr upto u k : creach n a1 -> resolves upto (Z.of_nat w) (Z.of_nat w) (Z.of_nat u) -> runs intr k (u - n) ->
      (forall a2, ccols intr a1 None upto = Ok a2 -> creach (n + k) a2 /\ receive c_step (calls n k) (ca_cons (an_calc a1)) (ca_cons (an_calc a2))) /\
      (forall cns, receive c_step (calls n k) (ca_cons (an_calc a1)) cns -> exists a2, ccols intr a1 None upto = Ok a2 /\ ca_cons (an_calc a2) = cns).
    Proof.
      intros (R1 & R2 & R3 & R4 & R5 & R6) Hu Hr. pose proof R1 as (C1 & C2 & C3 & C4 & C5 & C6).
      assert (Huw : u <= w).
      { destruct upto as [z|[| |x|]|]; cbn [resolves] in Hu; [lia|destruct Hu|destruct Hu| |destruct Hu|destruct Hu]. destruct Hu as (_ & _ & j & _ & _ & Ej). lia. }
      assert (L := @calc_columns (an_calc a1) w h intr None upto n u k HG).
      rewrite C4, C6, Hns in L. destruct L as [L1 L2]; auto; try lia.
      { eapply ids_ok_same; [|eapply receive_ids; exact R6|exact HI]. rewrite <- (map_length snd), R3, map_length. reflexivity. }
      { cbn [from_col resolves]. rewrite R4. lia. }
      pose proof Hr as (U1 & U2 & U3). unfold any_columns. rewrite C4, C5, Hns, Hnq. split.
      - intros a2 E. apply bind_ok in E. destruct E as (s & E & E'). injection E' as <-. destruct (L1 s E) as (P1 & P2 & P3 & P4 & P5). cbn [an_calc]. split; [|exact P4].
        split. { destruct P1 as (D1 & D2 & D3 & D4 & D5 & D6). repeat split; cbn [an_calc]; congruence. }
        split; [exact P2|]. split; [cbn [an_calc]; congruence|]. cbn [an_calc]. split. { rewrite P5, R4. destruct (Nat.eqb_spec k 0); lia. } split; [lia|].
        eapply receive_ext; [|apply receive_app; exists (ca_cons (an_calc a1)); split; [exact R6|exact P4]]. intros c ids _. unfold column_calls. rewrite seq_app, map_app. reflexivity.
      - intros cns Hc. destruct (L2 cns Hc) as (s & E & Es). rewrite E. eexists. split; [reflexivity|exact Es].
    Qed.

    Definition col_run (cs : list ((nat -> bool) * request)) : res (any X G C) := foldM (fun a c => ccols (fst c) a None (snd c)) cs a.

    Lemma col_resolves n a1 intr upto a2 : creach n a1 -> ccols intr a1 None upto = Ok a2 -> exists u, resolves upto (Z.of_nat w) (Z.of_nat w) (Z.of_nat u).
    Proof.
      intros ((C1 & C2 & C3 & C4 & C5 & C6) & _) E. unfold any_columns, calculate_columns in E. rewrite C4, Hns in E. apply bind_ok in E. destruct E as (s & E & _).
      apply bind_ok in E. destruct E as (st & _ & E). apply bind_ok in E. destruct E as (v & Ev & _). apply resolves_ok in Ev; [|lia]. exists (Z.to_nat v).
      rewrite Z2Nat.id; [exact Ev|]. destruct upto as [z|[| |x|]|]; cbn [resolves] in Ev; [lia|destruct Ev|destruct Ev| |destruct Ev|destruct Ev].
      destruct Ev as (Q1 & _ & j & J1 & J2 & ->). enough (0 <= j)%Z by lia. assert (0 <= inject_Z j)%Q.
      { eapply Qle_trans; [|exact J1]. apply Qmult_le_0_compat; [exact Q1|]. change 0%Q with (inject_Z 0). rewrite <- Zle_Qle. lia. }
      change 0%Q with (inject_Z 0) in H. rewrite <- Zle_Qle in H. exact H.
    Qed.

    Lemma col_run_reach cs : forall a', col_run cs = Ok a' -> exists n, creach n a'.
    Proof.
      induction cs as [|c cs IH] using rev_ind; intros a' E.
      - injection E as <-. exists 0. apply creach_fresh.
      - unfold col_run in E. rewrite foldM_app in E. apply bind_ok in E. destruct E as (a1 & E1 & E). cbn [foldM] in E. apply bind_ok in E. destruct E as (a2 & E2 & E). injection E as <-.
        destruct (IH a1 E1) as (n & HR). destruct (col_resolves _ _ HR E2) as (u & Hu). destruct (runs_exists (fst c) (u - n)) as (k & Hk).
        destruct (@col_call n a1 (fst c) (snd c) u k HR Hu Hk) as [D1 _]. exists (n + k). apply D1, E2.
    Qed.

    Lemma creach_one n a' : creach n a' -> exists a1, ccols never a None (RInt (Z.of_nat n)) = Ok a1 /\ ca_cons (an_calc a1) = ca_cons (an_calc a').
    Proof.
      intros (R1 & R2 & R3 & R4 & R5 & R6).
      destruct (@col_call 0 a never (RInt (Z.of_nat n)) n n creach_fresh) as [_ D].
      { cbn [resolves]. lia. } { apply runs_never_iff. lia. }
      exact (D _ R6).
    Qed.

    Lemma resolves_all full v : resolves (RFloat (Fin 1%Q)) full full v -> v = full.
    Proof.
      cbn [resolves]. intros (_ & _ & k & K1 & K2 & ->). assert (k = full); [|lia]. apply Z.le_antisymm.
      - apply K2. rewrite Qmult_1_l. apply Qle_refl.
      - rewrite Qmult_1_l, <- Zle_Qle in K1. exact K1.
    Qed.

    Lemma creach_full n a1 a2 : creach n a1 -> ccols never a1 None (RFloat (Fin 1%Q)) = Ok a2 -> creach w a2.
    Proof.
      intros HR E. destruct (col_resolves _ _ HR E) as (u & Hu). pose proof (resolves_all Hu) as Eu.
      destruct (@col_call n a1 never _ u (u - n) HR Hu) as [D _]; [apply runs_never_iff; reflexivity|]. destruct (D a2 E) as [HR2 _]. destruct HR as (_ & _ & _ & _ & R5 & _).
      replace (n + (u - n)) with w in HR2 by lia. exact HR2.
    Qed.
  End Run.
End Columns.

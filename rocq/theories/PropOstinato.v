(** * PropOstinato: consensus motifs *)
From Coq Require Import QArith Reals Lra Sorted Permutation.
From Verif Require Import Np NpFacts Inst Mat SLog MProfile MZnorm MCalc MMulti MOstinato SReal SCalc SGen SOstinato PArith PZdist PZgeo PZnorm POstinato POstinatoSub PropCalc PropZnorm.
Set Implicit Arguments.
Open Scope nat_scope.

(** A collection that can be searched *)
Definition searchable (m : nat) (C : list (list R)) : Prop := 3 <= m /\ 2 <= length C /\ forall S, In S C -> m <= length S.
(** The collection as it is passed to the code *)
Notation finc C := (map (map (@Fin R)) C).

(** ** Sanity of the specification: the radii exist, are unique, and the radius is the largest of the k-th radii *)
Theorem C52_spec_radius : forall m C s i, searchable m C -> s < length C -> exists v, radius m C s i v /\ forall v', radius m C s i v' -> v' = v.
Proof.
  intros m C s i (Hm & Hn & HC) Hs. assert (H : 0 < m) by lia. exists (rad m C s i). split; [apply rad_radius; assumption|]. intros v' Hv. eapply radius_rad; eassumption.
Qed.
Theorem C53_spec_radius : forall m C k s i, searchable m C -> s < length C -> 1 <= k -> k < length C -> exists v, radius_k m C k s i v /\ forall v', radius_k m C k s i v' -> v' = v.
Proof.
  intros m C k s i (Hm & Hn & HC) Hs H1 H2. assert (H : 0 < m) by lia. destruct (@radius_k_total m C H HC k s i Hs H1 H2) as (v & Hv). exists v. split; [exact Hv|]. intros v' Hv'. eapply radius_k_unique; eassumption.
Qed.
Theorem C53_spec_all : forall m C s i v, searchable m C -> s < length C -> radius_k m C (length C - 1) s i v <-> radius m C s i v.
Proof.
  intros m C s i v (Hm & Hn & HC) Hs. assert (H : 0 < m) by lia.
  assert (F : forall w, radius_k m C (length C - 1) s i w -> radius m C s i w).
  { intros w (d & l & Hd & HP & HSo & _ & E). exists d. split; [exact Hd|]. assert (HO : forall t, In t (others C s) <-> t < length C /\ t <> s).
    { intro t. unfold others. rewrite filter_In, in_seq, negb_true_iff, Nat.eqb_neq. lia. }
    assert (HI : In w l) by (eapply nth_error_In; exact E). split.
    - apply (Permutation_in _ HP), in_map_iff in HI. destruct HI as (t & Et & Ht%HO). exists t. auto.
    - intros t Ht%HO. assert (Hl : In (d t) l) by (apply (Permutation_in _ (Permutation_sym HP)), in_map, Ht). apply In_nth_error in Hl. destruct Hl as (j & Ej).
      assert (Ll : length l = length C - 1). { rewrite (Permutation_length HP), map_length, others_eq, app_length, !seq_length by exact Hs. lia. }
      assert (Hj : j < length l) by (apply nth_error_Some; congruence). destruct (Nat.eq_dec j (length C - 1 - 1)) as [->|Nj]; [rewrite E in Ej; injection Ej as ->; apply Rle_refl|].
      clear - HSo E Ej Hj Ll Nj. assert (Lt : j < length C - 1 - 1) by lia. revert Lt E Ej. generalize (length C - 1 - 1) as k. clear Nj Ll Hj. revert j. induction HSo as [|x l HS IH HF]; intros j k Lt E Ej; [destruct k; discriminate|].
      destruct k; [lia|]. cbn in E. destruct j; cbn in Ej.
      + injection Ej as <-. rewrite Forall_forall in HF. apply HF. eapply nth_error_In, E.
      + apply (IH j k); [lia|assumption|assumption]. }
  split; [apply F|]. intro Hv. destruct (@radius_k_total m C H HC (length C - 1) s i Hs ltac:(lia) ltac:(lia)) as (w & Hw).
  rewrite (@radius_rad m C H HC s i v Hn Hs Hv). rewrite <- (@radius_rad m C H HC s i w Hn Hs (F w Hw)). exact Hw.
Qed.

(** ** C52. find_consensus_motif *)
Theorem C52_consensus_motif : forall mem memb argsort m C, argsorts argsort -> searchable m C ->
  exists s i v, find_consensus_motif mem memb argsort (finc C) (Z.of_nat m) = Ok (mkCm (Fin v) (Z.of_nat s) (Z.of_nat i)) /\ consensus m C (radius m C) s i v.
Proof.
  intros mem memb argsort m C Ha (Hm & Hn & HC). assert (H : 0 < m) by lia. destruct (@find_ok m C H HC mem memb argsort Ha Hn Hm) as (s & i & E & Hc). exists s, i, (rad m C s i). auto.
Qed.
Print Assumptions C52_consensus_motif.

Lemma check_short (C : list (list (Np.num R))) m : check_lengths C m = if existsb (fun s => (Z.of_nat (length s) <? m)%Z) C then Err RuntimeError else Ok tt.
Proof. reflexivity. Qed.
Theorem C52_rejects : forall mem memb argsort (C : list (list (Np.num R))) m,
  length C < 2 \/ (m < 3)%Z \/ (exists S, In S C /\ (Z.of_nat (length S) < m)%Z) -> find_consensus_motif mem memb argsort C m = Err RuntimeError.
Proof.
  intros mem memb argsort C m H. unfold find_consensus_motif. destruct (Nat.ltb_spec (length C) 2); [reflexivity|]. destruct (Z.ltb_spec m 3); [reflexivity|].
  destruct H as [H|[H|(S & HS & HL)]]; [lia|lia|]. rewrite check_short. rewrite (proj2 (existsb_exists _ _)); [reflexivity|]. exists S. split; [exact HS|]. apply Z.ltb_lt, HL.
Qed.
Print Assumptions C52_rejects.

(** ** C53. find_consensus_motif_subset *)

(** Full statement: as below, for every [k] from 2 to the number of series.  It fails for [k] = 4 (refuted below). *)
Theorem C53_subset_motif_partial : forall mem memb argsort set_order shuffle m C k,
  argsorts argsort -> orders_sets set_order -> (forall l, Permutation (shuffle l) l) -> searchable m C -> 2 <= k -> k <= length C -> k <= 3 ->
  exists s i v, find_consensus_motif_subset mem memb argsort set_order shuffle (fun _ _ => never) (finc C) (Z.of_nat m) (Z.of_nat k) = Ok (mkCm (Fin v) (Z.of_nat s) (Z.of_nat i)) /\
    consensus m C (radius_k m C (k - 1)) s i v.
Proof.
  intros mem memb argsort set_order shuffle m C k Ha Hso Hsh (Hm & Hn & HC) H2 Hk H3. assert (H : 0 < m) by lia.
  destruct (@subset_all m C H HC mem memb argsort Ha set_order shuffle Hso Hsh k Hn Hm H2 Hk) as (b & E & Hb).
  assert (HR : forall s i, s < length C -> radius_k m C (k - 1) s i (code_rad m C (length C - k) s i)).
  { intros s i Hs. assert (k = 2 \/ k = 3) as [->| ->] by lia; [apply code_rad_2|apply code_rad_3]; try assumption; lia. }
  destruct Hb as [[_ Hb]|(s & i & -> & (B1 & B2 & B3) & Hb)].
  - exfalso. apply (Hb 0 0). unfold before, cols. assert (H0 : 0 < length C) by lia. pose proof (HC (nth 0 C []) (nth_In _ _ H0)). unfold ser. lia.
  - exists s, i, (code_rad m C (length C - k) s i). split; [exact E|]. pose proof (HC (nth s C []) (nth_In _ _ B2)). unfold cols, ser in B3. split; [|split].
    + split; [exact B2|lia].
    + apply HR, B2.
    + intros s' i' v' [Hs' Hi'] Hv. rewrite (@radius_k_unique m C H HC _ _ _ _ _ Hv (HR s' i' Hs')). apply Hb. unfold before, cols, ser. lia.
Qed.
Print Assumptions C53_subset_motif_partial.

Theorem C53_rejects : forall mem memb argsort set_order shuffle intr (C : list (list (Np.num R))) m k,
  length C < 2 \/ (m < 3)%Z \/ (k < 2)%Z \/ (Z.of_nat (length C) < k)%Z \/ (exists S, In S C /\ (Z.of_nat (length S) < m)%Z) ->
  find_consensus_motif_subset mem memb argsort set_order shuffle intr C m k = Err RuntimeError.
Proof.
  intros mem memb argsort set_order shuffle intr C m k H. unfold find_consensus_motif_subset. destruct (Nat.ltb_spec (length C) 2); [reflexivity|]. destruct (Z.ltb_spec m 3); [reflexivity|].
  destruct (Z.ltb_spec k 2); [reflexivity|]. destruct (Z.ltb_spec (Z.of_nat (length C)) k); [reflexivity|]. cbn [orb].
  destruct H as [H|[H|[H|[H|(S & HS & HL)]]]]; [lia|lia|lia|lia|]. rewrite check_short. rewrite (proj2 (existsb_exists _ _)); [reflexivity|]. exists S. split; [exact HS|]. apply Z.ltb_lt, HL.
Qed.
Print Assumptions C53_rejects.

(** *** A flat series among three equal ones *)
Definition wave : list R := [0; 2; 0; 2]%R.
Definition flat : list R := [1; 1; 1; 1]%R.
Lemma std_flat : std flat = 0%R.
Proof. unfold std. replace (mean _) with 0%R; [apply sqrt_0|]. unfold mean, flat, rsum. cbn [map fold_right length INR]. lra. Qed.
Lemma std_wave : std wave = 1%R.
Proof.
  unfold std. replace (mean _) with 1%R; [apply sqrt_1|]. assert (E : mean wave = 1%R) by (unfold mean, wave, rsum; cbn [fold_right length INR]; lra). rewrite E.
  unfold mean, wave, rsum. cbn [map fold_right length INR]. lra.
Qed.
Lemma uneven_wave : uneven wave = true.
Proof. unfold uneven. rewrite std_wave. apply Rltb_yes. pose proof eps12_lt1. pose proof thr_pos. unfold thr in *. lra. Qed.
Lemma even_flat : uneven flat = false.
Proof. unfold uneven. rewrite std_flat. apply Rltb_no. pose proof thr_pos. unfold thr in *. lra. Qed.
Lemma sqrt4 : sqrt (INR 4) = 2%R.
Proof. replace (INR 4) with (2 * 2)%R by (cbn; lra). apply sqrt_square. lra. Qed.
Lemma wave_flat : zdef wave flat = 2%R.
Proof. unfold zdef. rewrite uneven_wave, even_flat. apply sqrt4. Qed.
Lemma flat_wave : zdef flat wave = 2%R.
Proof. unfold zdef. rewrite uneven_wave, even_flat. apply sqrt4. Qed.
Lemma wave_wave : zdef wave wave = 0%R.
Proof. rewrite <- zdist_def by (cbn; lia). apply zdist_self. Qed.

Definition odd_one : list (list R) := [wave; wave; wave; flat].
Lemma odd_one_searchable : searchable 4 odd_one.
Proof. split; [lia|]. split; [cbn; lia|]. intros S [<-|[<-|[<-|[<-|[]]]]]; cbn; lia. Qed.
Lemma odd_one_sub s i : has_sub 4 odd_one s i -> i = 0 /\ s < 4.
Proof. intros [H1 H2]. cbn in H1. do 4 (destruct s; [cbn in H2; lia|]). lia. Qed.
Lemma odd_one_match s t d : s < 4 -> t < 4 -> best_match 4 odd_one s 0 t d -> d = zdef (nth t odd_one []) (nth s odd_one []).
Proof.
  intros Hs Ht [(r & Hr & <-) _]. apply odd_one_sub in Hr. destruct Hr as [-> _].
  do 4 (destruct s; [do 4 (destruct t; [reflexivity|]); lia|]). lia.
Qed.
Lemma odd_one_radius s v : s < 4 -> radius 4 odd_one s 0 v -> (2 <= v)%R.
Proof.
  intros Hs (d & Hd & _ & Hg). destruct (Nat.eq_dec s 3) as [->|Ns].
  - rewrite <- wave_flat. replace (zdef wave flat) with (d 0); [apply Hg; cbn; lia|]. symmetry. rewrite (@odd_one_match 3 0 (d 0)); [reflexivity|lia|lia|]. apply Hd; cbn; lia.
  - rewrite <- flat_wave. replace (zdef flat wave) with (d 3); [apply Hg; cbn; lia|]. rewrite (@odd_one_match s 3 (d 3)); [|lia|lia|apply Hd; [cbn; lia|congruence]].
    do 3 (destruct s; [reflexivity|]). lia.
Qed.

(** With [k] = 4 the returned radius is 0, while the radius of every subsequence of the collection is at least 2. *)
Theorem C53_subset_motif_refuted : exists m C k, searchable m C /\ 2 <= k /\ k <= length C /\
  forall mem memb argsort set_order shuffle, argsorts argsort -> orders_sets set_order -> (forall l, Permutation (shuffle l) l) ->
  exists s i v, find_consensus_motif_subset mem memb argsort set_order shuffle (fun _ _ => never) (finc C) (Z.of_nat m) (Z.of_nat k) = Ok (mkCm (Fin v) (Z.of_nat s) (Z.of_nat i)) /\
    forall s' i' v', has_sub m C s' i' -> radius_k m C (k - 1) s' i' v' -> (v + 2 <= v')%R.
Proof.
  exists 4, odd_one, 4. split; [apply odd_one_searchable|]. split; [lia|]. split; [cbn; lia|]. intros mem memb argsort set_order shuffle Ha Hso Hsh. destruct odd_one_searchable as (Hm & Hn & HC).
  assert (H : 0 < 4) by lia. assert (Hk : 4 <= length odd_one) by (cbn; lia).
  destruct (@subset_all 4 odd_one H HC mem memb argsort Ha set_order shuffle Hso Hsh 4 Hn Hm ltac:(lia) Hk) as (b & E & Hb).
  destruct Hb as [[_ Hb]|(s & i & -> & (B1 & B2 & B3) & Hb)].
  - exfalso. apply (Hb 0 0). unfold before, cols, ser. cbn. lia.
  - exists s, i, (code_rad 4 odd_one (length odd_one - 4) s i). split; [exact E|]. intros s' i' v' Hs' Hv'. destruct (odd_one_sub Hs') as [-> L]. apply (C53_spec_all _ _ odd_one_searchable L) in Hv'. pose proof (odd_one_radius L Hv') as H2.
    assert (Hv : (code_rad 4 odd_one (length odd_one - 4) s i <= code_rad 4 odd_one (length odd_one - 4) 0 0)%R) by (apply Hb; unfold before, cols, ser; cbn; lia).
    assert (Z : code_rad 4 odd_one (length odd_one - 4) 0 0 = 0%R).
    { assert (D : forall t, t = 1 \/ t = 2 -> dm 4 odd_one 0 t 0 = 0%R).
      { intros t Ht. rewrite (@odd_one_match 0 t (dm 4 odd_one 0 t 0)); [|lia|lia|apply dm_best; [exact H|exact HC|cbn; lia]]. destruct Ht as [->| ->]; apply wave_wave. }
      unfold code_rad, first_radii. change (length odd_one - (length odd_one - 4) - 2) with 2. change (length odd_one - 4 + 1) with 1. cbn [seq map].
      change ((0 + (length odd_one - 4) + 2) mod length odd_one) with 2. change ((0 + 1 + 0) mod length odd_one) with 1.
      rewrite !D by auto. cbn. replace (Rmax 0 0) with 0%R by (rewrite Rmax_left; lra). replace (Rmax 0 0) with 0%R by (rewrite Rmax_left; lra). reflexivity. }
    lra.
Qed.
Print Assumptions C53_subset_motif_refuted.

(** *** Instances *)
(** An argsort: insertion sort of the positions *)
Fixpoint pinsert (l : list R) (i : nat) (p : list nat) : list nat :=
  match p with [] => [i] | j :: p' => if Rltb (nth j l 0%R) (nth i l 0%R) then j :: pinsert l i p' else i :: p end.
Definition positions (l : list R) : list nat := fold_right (pinsert l) [] (seq 0 (length l)).
Definition unfin (x : Np.num R) : R := match x with Fin r => r | _ => 0%R end.
Definition argsort_insert (l : list (Np.num R)) : list nat := positions (map unfin l).
Example argsorts_insert : argsorts argsort_insert.
Proof.
  intro l. unfold argsort_insert. rewrite map_map, map_id. unfold positions.
  assert (P : forall i p, Permutation (pinsert l i p) (i :: p)).
  { intros i p. induction p as [|j p IH]; [reflexivity|]. cbn [pinsert]. destruct (Rltb _ _); [|reflexivity]. rewrite IH. apply perm_swap. }
  split.
  - induction (seq 0 (length l)) as [|i p IH]; [reflexivity|]. cbn [fold_right]. rewrite P, IH. reflexivity.
  - induction (seq 0 (length l)) as [|i p IH]; [constructor|]. cbn [fold_right]. induction IH as [|j p' HS IH' HF]; cbn [pinsert]; [repeat constructor|]. destruct (Rltb_spec (nth j l 0%R) (nth i l 0%R)) as [H|H].
    + constructor; [exact IH'|]. apply Forall_forall. intros z Hz. apply (Permutation_in _ (P i p')) in Hz. destruct Hz as [<-|Hz]; [lra|]. rewrite Forall_forall in HF. auto.
    + constructor; [constructor; assumption|]. constructor; [lra|]. rewrite Forall_forall in *. intros z Hz. specialize (HF z Hz). lra.
Qed.

(** All series together: the consensus radius of the collection above is 2. *)
Example C52_example : exists s, find_consensus_motif (fun _ => NaN) (fun _ => false) argsort_insert (finc odd_one) 4 = Ok (mkCm (Fin 2%R) (Z.of_nat s) 0).
Proof.
  destruct (@C52_consensus_motif (fun _ => NaN) (fun _ => false) argsort_insert 4 odd_one argsorts_insert odd_one_searchable) as (s & i & v & E & (Hs & Hv & Hmin)).
  destruct (odd_one_sub Hs) as [-> L]. exists s. change (Z.of_nat 4) with 4%Z in E. rewrite E. do 3 f_equal.
  apply Rle_antisym; [|exact (odd_one_radius L Hv)]. apply (Hmin 0 0); [split; cbn; lia|].
  destruct (C52_spec_radius 0 odd_one_searchable (s := 0) ltac:(cbn; lia)) as (w & Hw & _). replace 2%R with w; [exact Hw|].
  destruct Hw as (d & Hd & (t & [Ht Hts] & <-) & Hg). cbn in Ht. assert (M : forall t, t < 4 -> t <> 0 -> d t = zdef (nth t odd_one []) wave).
  { intros t' Ht' Hts'. apply (@odd_one_match 0 t'); [lia|exact Ht'|apply Hd; [exact Ht'|exact Hts']]. }
  pose proof (Hg 3 ltac:(cbn; lia)) as H3. rewrite M in H3 by lia. rewrite M in H3 by assumption. rewrite M by assumption. cbn [nth odd_one] in H3. rewrite flat_wave in H3.
  do 4 (destruct t as [|t]; [cbn [nth odd_one] in *; rewrite ?wave_wave, ?flat_wave in *; try reflexivity; lra|]). lia.
Qed.
(** Three of the four series: the flat one can be ignored. *)
Example C53_example : exists s, find_consensus_motif_subset (fun _ => NaN) (fun _ => false) argsort_insert dedup (fun l => l) (fun _ _ => never) (finc odd_one) 4 3 = Ok (mkCm (Fin 0%R) (Z.of_nat s) 0).
Proof.
  destruct (@C53_subset_motif_partial (fun _ => NaN) (fun _ => false) argsort_insert dedup (fun l => l) 4 odd_one 3 argsorts_insert) as (s & i & v & E & (Hs & Hv & Hmin)).
  - apply dedup_orders.
  - reflexivity.
  - apply odd_one_searchable.
  - lia.
  - cbn; lia.
  - lia.
  - destruct (odd_one_sub Hs) as [-> L]. exists s. change (Z.of_nat 4) with 4%Z in E. change (Z.of_nat 3) with 3%Z in E. rewrite E. do 3 f_equal.
    assert (N : forall s t, (0 <= zdef (nth t odd_one []) (nth s odd_one []))%R).
    { intros s0 t0. unfold zdef, euclid. repeat match goal with |- context [if ?b then _ else _] => destruct b end; try apply sqrt_pos; lra. }
    apply Rle_antisym.
    + apply (Hmin 0 0); [split; cbn; lia|]. exists (fun t => zdef (nth t odd_one []) wave), [0; 0; 2]%R. split; [|split; [|split; [|split]]].
      * intros t Ht Hts. cbn in Ht. split; [|intros r Hr; destruct (odd_one_sub Hr) as [-> _]; do 4 (destruct t; [apply Rle_refl|]); lia].
        exists 0. do 4 (destruct t; [split; [split; cbn; lia|reflexivity]|]). lia.
      * cbn [others odd_one length seq filter Nat.eqb negb map nth]. rewrite wave_wave, flat_wave. reflexivity.
      * repeat constructor; lra.
      * lia.
      * reflexivity.
    + destruct Hv as (d & l & Hd & HP & _ & _ & En). apply nth_error_In in En. apply (Permutation_in _ HP), in_map_iff in En. destruct En as (t & <- & Ht).
      unfold others in Ht. apply filter_In in Ht. destruct Ht as [Ht%in_seq Hts]. apply negb_true_iff, Nat.eqb_neq in Hts. rewrite (@odd_one_match s t (d t)); [apply N|exact L|cbn in Ht; lia|]. apply Hd; [lia|exact Hts].
Qed.

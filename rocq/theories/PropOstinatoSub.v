(** * PropOstinatoSub: what find_consensus_motif_subset computes for every k; how the three searches agree *)
From Coq Require Import QArith Reals Lra Sorted Permutation.
From Verif Require Import Np NpFacts Inst Mat SLog MProfile MZnorm MCalc MMulti MOstinato SReal SCalc SGen SOstinato SOstinatoSub PArith PZdist PZgeo PZnorm POstinato POstinatoSub PropCalc PropZnorm PropOstinato PropOstinatoAny.
Set Implicit Arguments.
Open Scope nat_scope.

(** ** Repeated rounds with the same distance *)
Lemma raise_nth d t : forall l, l <> [] -> nth_error (rsort (l ++ repeat d (S t))) (S t) = nth_error (rsort (raise d l ++ repeat d t)) t.
Proof.
  intros l Hl. unfold raise. pose proof (rsort_sorted l) as HS. pose proof (rsort_length l) as HL. pose proof (rsort_perm l) as HP. destruct (rsort l) as [|x l']; [destruct l; [congruence|discriminate]|].
  assert (E : rsort (l ++ repeat d (S t)) = Rmin x d :: rsort ((Rmax x d :: l') ++ repeat d t)).
  { apply sorted_unique; [apply rsort_sorted| |].
    - constructor; [apply rsort_sorted|]. apply Forall_forall. intros y Hy. apply (Permutation_in _ (rsort_perm _)) in Hy. inversion HS as [|? ? _ HF]; subst. rewrite Forall_forall in HF. cbn [app] in Hy. destruct Hy as [<-|Hy].
      + unfold Rmin, Rmax. destruct (Rle_dec x d); lra.
      + apply in_app_or in Hy. destruct Hy as [Hy|Hy]; [eapply Rle_trans; [apply Rmin_l|apply HF, Hy]|]. apply repeat_spec in Hy. subst y. apply Rmin_r.
    - rewrite !rsort_perm, <- HP. cbn [repeat app]. transitivity (x :: d :: l' ++ repeat d t); [constructor; symmetry; apply Permutation_middle|].
      unfold Rmin, Rmax. destruct (Rle_dec x d); [reflexivity|apply perm_swap]. }
  rewrite E. reflexivity.
Qed.
Lemma rounds_nth d t : forall l, l <> [] -> nth_error (rsort (l ++ repeat d t)) t = Some (rmin (rounds t d l)).
Proof.
  induction t as [|t IH]; intros l Hl; [cbn [repeat rounds]; rewrite app_nil_r; apply first_smallest, Hl|]. rewrite raise_nth by exact Hl. cbn [rounds]. apply IH, raise_ne, Hl.
Qed.

Lemma mod_other (n s j : nat) : s < n -> 1 <= j -> j < n -> (s + j) mod n < n /\ (s + j) mod n <> s.
Proof.
  intros Hs H1 H2. split; [apply Nat.mod_upper_bound; lia|]. destruct (Nat.lt_ge_cases (s + j) n) as [H|H]; [rewrite Nat.mod_small by exact H; lia|].
  replace (s + j) with (s + j - n + 1 * n) by lia. rewrite Nat.mod_add, Nat.mod_small by lia. lia.
Qed.
Lemma examined_other (n k s t : nat) : 2 <= k -> k <= n -> s < n -> In t (examined n k s) -> t < n /\ t <> s.
Proof.
  intros H2 Hk Hs Ht. apply in_app_or in Ht. destruct Ht as [Ht|Ht].
  - apply in_map_iff in Ht. destruct Ht as (j & <- & Hj%in_seq). replace (s + 1 + j) with (s + (1 + j)) by lia. apply mod_other; lia.
  - assert (L : 0 < k - 2) by (destruct (k - 2); [destruct Ht|lia]). apply repeat_spec in Ht. subst t. replace (s + (n - k) + 2) with (s + (n - k + 2)) by lia. apply mod_other; lia.
Qed.
Lemma map_rep {S T} (f : S -> T) x c : map f (repeat x c) = repeat (f x) c.
Proof. induction c as [|c IH]; [reflexivity|]. cbn [repeat map]. rewrite IH. reflexivity. Qed.

Section Collection.
  Variable m : nat.
  Variable C : list (list R).
  Hypothesis Hm : 0 < m.
  Hypothesis HC : forall S, In S C -> m <= length S.
  Notation n := (length C).
  Lemma among_iff ts k s i v : (forall t, In t ts -> t < n /\ t <> s) -> radius_among m C ts k s i v <-> 1 <= k /\ nth_error (rsort (map (fun t => dm m C s t i) ts)) (k - 1) = Some v.
  Proof.
    intro Hts. split.
    - intros (d & l & Hd & HP & HS & Hk & E). split; [exact Hk|]. rewrite <- E. f_equal. apply sorted_unique; [apply rsort_sorted|exact HS|]. rewrite rsort_perm, HP.
      erewrite map_ext_in; [reflexivity|]. intros t Ht. destruct (Hts t Ht) as [H1 H2]. symmetry. apply best_match_dm; [exact Hm|exact HC|exact H1|]. apply Hd; assumption.
    - intros [Hk E]. exists (fun t => dm m C s t i), (rsort (map (fun t => dm m C s t i) ts)). split; [intros t Ht _; apply dm_best; assumption|]. split; [apply rsort_perm|]. split; [apply rsort_sorted|]. auto.
  Qed.
  Lemma code_rad_among k s i : 2 <= k -> k <= n -> s < n -> radius_among m C (examined n k s) (k - 1) s i (code_rad m C (n - k) s i).
  Proof.
    intros H2 Hk Hs. apply among_iff; [intros t Ht; eapply examined_other; eassumption|]. split; [lia|]. unfold examined, code_rad. rewrite map_app, map_map, map_rep. replace (n - (n - k) - 2) with (k - 2) by lia.
    replace (k - 1 - 1) with (k - 2) by lia. apply rounds_nth. unfold first_radii. rewrite (Nat.add_1_r (n - k)). discriminate.
  Qed.
End Collection.

(** ** C99. What find_consensus_motif_subset computes, for every k *)
Theorem C99_examined : forall mem memb argsort set_order shuffle m C k,
  argsorts argsort -> orders_sets set_order -> (forall l, Permutation (shuffle l) l) -> searchable m C -> 2 <= k -> k <= length C ->
  exists s i v, find_consensus_motif_subset mem memb argsort set_order shuffle (fun _ _ => never) (finc C) (Z.of_nat m) (Z.of_nat k) = Ok (mkCm (Fin v) (Z.of_nat s) (Z.of_nat i)) /\
    consensus m C (fun s i => radius_among m C (examined (length C) k s) (k - 1) s i) s i v.
Proof.
  intros mem memb argsort set_order shuffle m C k Ha Hso Hsh (Hm & Hn & HC) H2 Hk. assert (H : 0 < m) by lia.
  destruct (@subset_all m C H HC mem memb argsort Ha set_order shuffle Hso Hsh k Hn Hm H2 Hk) as (b & E & Hb).
  destruct Hb as [[_ Hb]|(s & i & -> & (B1 & B2 & B3) & Hb)].
  - exfalso. apply (Hb 0 0). unfold before, cols. assert (H0 : 0 < length C) by lia. pose proof (HC (nth 0 C []) (nth_In _ _ H0)). unfold ser. lia.
  - exists s, i, (code_rad m C (length C - k) s i). split; [exact E|]. pose proof (HC (nth s C []) (nth_In _ _ B2)). unfold cols, ser in B3. split; [|split].
    + split; [exact B2|lia].
    + apply code_rad_among; assumption.
    + intros s' i' v' [Hs' Hi'] Hv. assert (EX : forall t, In t (examined (length C) k s') -> t < length C /\ t <> s') by (intros t Ht; eapply examined_other; eassumption).
      apply (@among_iff m C H HC _ (k - 1) s' i' v' EX) in Hv. pose proof (@code_rad_among m C H HC k s' i' H2 Hk Hs') as Hc. apply (@among_iff m C H HC _ (k - 1) s' i' _ EX) in Hc.
      assert (Ev : v' = code_rad m C (length C - k) s' i') by (destruct Hv, Hc; congruence). rewrite Ev. apply Hb. unfold before, cols, ser. lia.
Qed.
Print Assumptions C99_examined.

(** What is examined, and what is not: for [k] <= 3 every other series once; for larger [k] the [k - 3] series before [s] never. *)
Theorem C99_examined_small : forall (C : list (list R)) k s, 2 <= k -> k <= 3 -> k <= length C -> s < length C -> Permutation (examined (length C) k s) (others C s).
Proof.
  intros C k s H2 H3 Hk Hs. rewrite <- (rotation C Hs). unfold examined. destruct (Nat.eq_dec k 2) as [->|N].
  - cbn [Nat.sub repeat]. rewrite app_nil_r. replace (length C - 2 + 1) with (length C - 1) by lia. reflexivity.
  - assert (k = 3) by lia. subst k. replace (length C - 1) with (S (length C - 3 + 1)) by lia. rewrite seq_S, map_app. cbn [repeat map Nat.sub]. apply Permutation_app_head. match goal with |- Permutation [?a mod _] [?b mod _] => replace b with a by lia end. reflexivity.
Qed.
Theorem C99_not_examined : forall n k s, 3 <= k -> k <= n -> s < n -> forall t, In t (examined n k s) <-> exists j, 1 <= j /\ j <= n - k + 2 /\ t = (s + j) mod n.
Proof.
  intros n k s H3 Hk Hs t. unfold examined. rewrite in_app_iff, in_map_iff. split.
  - intros [(j & <- & Hj%in_seq)|Ht]; [exists (1 + j); split; [lia|]; split; [lia|]; f_equal; lia|]. apply repeat_spec in Ht. subst t. exists (n - k + 2). split; [lia|]. split; [lia|]. f_equal. lia.
  - intros (j & H1 & H2 & ->). destruct (Nat.eq_dec j (n - k + 2)) as [->|N].
    + right. destruct (k - 2) eqn:E; [lia|]. left. f_equal. lia.
    + left. exists (j - 1). split; [f_equal; lia|apply in_seq; lia].
Qed.

(** With k = n, only the next two series count: the radius is the larger of the two distances. *)
Theorem C99_all_series : forall m C s i v, searchable m C -> 3 <= length C -> s < length C ->
  radius_among m C (examined (length C) (length C) s) (length C - 1) s i v <->
  exists d1 d2, best_match m C s i ((s + 1) mod length C) d1 /\ best_match m C s i ((s + 2) mod length C) d2 /\ v = Rmax d1 d2.
Proof.
  intros m C s i v (Hm & Hn & HC) H3 Hs. assert (H : 0 < m) by lia.
  assert (EX : forall t, In t (examined (length C) (length C) s) -> t < length C /\ t <> s) by (intros t Ht; apply (@examined_other (length C) (length C) s t); [lia|lia|exact Hs|exact Ht]).
  rewrite (@among_iff m C H HC _ (length C - 1) s i v EX). unfold examined. rewrite Nat.sub_diag. cbn [Nat.add seq map app]. rewrite map_rep. rewrite !Nat.add_0_r.
  set (d1 := dm m C s ((s + 1) mod length C) i). set (d2 := dm m C s ((s + 2) mod length C) i). replace (length C - 1 - 1) with (length C - 2) by lia.
  pose proof (@rounds_nth d2 (length C - 2) [d1] ltac:(discriminate)) as E. cbn [app] in E. rewrite E.
  assert (R : forall t x, rmin (rounds (S t) d2 [x]) = Rmax x d2).
  { induction t as [|t IH]; intro x; [reflexivity|]. change (rounds (S (S t)) d2 [x]) with (rounds (S t) d2 [Rmax x d2]). rewrite IH. apply Rmax_left, Rmax_r. }
  replace (length C - 2) with (S (length C - 3)) by lia. rewrite R.
  assert (B1 : best_match m C s i ((s + 1) mod length C) d1) by (apply dm_best; [exact H|exact HC|apply Nat.mod_upper_bound; lia]).
  assert (B2 : best_match m C s i ((s + 2) mod length C) d2) by (apply dm_best; [exact H|exact HC|apply Nat.mod_upper_bound; lia]). split.
  - intros [_ [= <-]]. exists d1, d2. auto.
  - intros (e1 & e2 & E1 & E2 & ->). split; [lia|]. do 2 f_equal.
    + symmetry. apply best_match_dm; [exact H|exact HC|apply Nat.mod_upper_bound; lia|exact E1].
    + symmetry. apply best_match_dm; [exact H|exact HC|apply Nat.mod_upper_bound; lia|exact E2].
Qed.
Print Assumptions C99_all_series.

(** ** The three searches agree *)
(** After calculate(1.0), the least of the radii of OstinatoAnytime is the radius that find_consensus_motif returns, and it is
    reported for the motif that find_consensus_motif returns. *)
Theorem C99_agree : forall mem memb argsort set_order shuffle m C calls,
  argsorts argsort -> orders_sets set_order -> (forall l, Permutation (shuffle l) l) -> searchable m C -> sensible_calls calls -> In whole calls ->
  exists s i v o0 o rs, find_consensus_motif mem memb argsort (finc C) (Z.of_nat m) = Ok (mkCm (Fin v) (Z.of_nat s) (Z.of_nat i)) /\
    ost_new mem memb shuffle (finc C) (Z.of_nat m) = Ok o0 /\ calculates set_order calls o0 = Ok o /\ ost_radii o None = Ok rs /\
    at2 rs s i = Some (Fin v) /\ smallest rs v.
Proof.
  intros mem memb argsort set_order shuffle m C calls Ha Hso Hsh HS Hc Hw. destruct (@C52_consensus_motif mem memb argsort m C Ha HS) as (s & i & v & E & (B1 & B2 & B3)). pose proof HS as (Hm & Hn & HC).
  destruct (@C54_complete mem memb set_order shuffle m C None calls Hso Hsh ltac:(lia) Hn HC I Hc Hw) as (o0 & o & rs & E0 & E1 & E2 & [L1 L2] & H). exists s, i, v, o0, o, rs.
  split; [exact E|]. split; [exact E0|]. split; [exact E1|]. split; [exact E2|]. pose proof (H s i v B1 B2) as Hv. split; [exact Hv|]. split.
  - exists (nth s rs []). split; [apply nth_In; rewrite L1; apply B1|]. eapply nth_error_In, Hv.
  - intros r x Hr Hx. apply (In_nth _ _ []) in Hr. destruct Hr as (s' & Hs' & <-). rewrite L1 in Hs'. apply In_nth_error in Hx. destruct Hx as (i' & Hx).
    assert (Hi' : i' < length (nth s' rs [])) by (apply nth_error_Some; congruence). rewrite L2 in Hi' by exact Hs'. pose proof (HC _ (nth_In C [] Hs')). assert (HB : has_sub m C s' i') by (split; [exact Hs'|lia]).
    destruct (C52_spec_radius i' HS Hs') as (w & Hwr & _). pose proof (H s' i' w HB Hwr) as Ew. unfold at2 in Ew. exists w. split; [congruence|]. exact (B3 s' i' w HB Hwr).
Qed.
Print Assumptions C99_agree.

(** The same for find_consensus_motif_subset with [k] <= 3 and get_radii(k - 1) *)
Theorem C99_agree_subset : forall mem memb argsort set_order shuffle m C k calls,
  argsorts argsort -> orders_sets set_order -> (forall l, Permutation (shuffle l) l) -> searchable m C -> sensible_calls calls -> In whole calls -> 2 <= k -> k <= length C -> k <= 3 ->
  exists s i v o0 o rs, find_consensus_motif_subset mem memb argsort set_order shuffle (fun _ _ => never) (finc C) (Z.of_nat m) (Z.of_nat k) = Ok (mkCm (Fin v) (Z.of_nat s) (Z.of_nat i)) /\
    ost_new mem memb shuffle (finc C) (Z.of_nat m) = Ok o0 /\ calculates set_order calls o0 = Ok o /\ ost_radii o (Some (Z.of_nat (k - 1))) = Ok rs /\
    at2 rs s i = Some (Fin v) /\ smallest rs v.
Proof.
  intros mem memb argsort set_order shuffle m C k calls Ha Hso Hsh HS Hc Hw H2 Hk H3. destruct (@C53_subset_motif_partial mem memb argsort set_order shuffle m C k Ha Hso Hsh HS H2 Hk H3) as (s & i & v & E & (B1 & B2 & B3)). pose proof HS as (Hm & Hn & HC).
  destruct (@C54_complete mem memb set_order shuffle m C (Some (k - 1)) calls Hso Hsh ltac:(lia) Hn HC ltac:(cbn; lia) Hc Hw) as (o0 & o & rs & E0 & E1 & E2 & [L1 L2] & H). exists s, i, v, o0, o, rs.
  split; [exact E|]. split; [exact E0|]. split; [exact E1|]. split; [exact E2|]. pose proof (H s i v B1 B2) as Hv. split; [exact Hv|]. split.
  - exists (nth s rs []). split; [apply nth_In; rewrite L1; apply B1|]. eapply nth_error_In, Hv.
  - intros r x Hr Hx. apply (In_nth _ _ []) in Hr. destruct Hr as (s' & Hs' & <-). rewrite L1 in Hs'. apply In_nth_error in Hx. destruct Hx as (i' & Hx).
    assert (Hi' : i' < length (nth s' rs [])) by (apply nth_error_Some; congruence). rewrite L2 in Hi' by exact Hs'. pose proof (HC _ (nth_In C [] Hs')). assert (HB : has_sub m C s' i') by (split; [exact Hs'|lia]).
    destruct (@C53_spec_radius m C (k - 1) s' i' HS Hs' ltac:(lia) ltac:(lia)) as (w & Hwr & _). pose proof (H s' i' w HB Hwr) as Ew. unfold at2 in Ew. exists w. split; [congruence|]. exact (B3 s' i' w HB Hwr).
Qed.
Print Assumptions C99_agree_subset.

(** With all series of a collection of any size, find_consensus_motif_subset never returns a larger radius than find_consensus_motif,
    and the same one for two or three series. *)
Theorem C99_subset_below : forall mem memb argsort set_order shuffle m C,
  argsorts argsort -> orders_sets set_order -> (forall l, Permutation (shuffle l) l) -> searchable m C ->
  exists s i v s' i' v', find_consensus_motif mem memb argsort (finc C) (Z.of_nat m) = Ok (mkCm (Fin v) (Z.of_nat s) (Z.of_nat i)) /\
    find_consensus_motif_subset mem memb argsort set_order shuffle (fun _ _ => never) (finc C) (Z.of_nat m) (Z.of_nat (length C)) = Ok (mkCm (Fin v') (Z.of_nat s') (Z.of_nat i')) /\
    (v' <= v)%R /\ (length C <= 3 -> v' = v).
Proof.
  intros mem memb argsort set_order shuffle m C Ha Hso Hsh HS. destruct (@C52_consensus_motif mem memb argsort m C Ha HS) as (s & i & v & E & (B1 & B2 & B3)). pose proof HS as (Hm & Hn & HC).
  destruct (@C99_examined mem memb argsort set_order shuffle m C (length C) Ha Hso Hsh HS Hn (Nat.le_refl _)) as (s' & i' & v' & E' & (B1' & B2' & B3')). exists s, i, v, s', i', v'. split; [exact E|]. split; [exact E'|].
  destruct (Nat.le_gt_cases (length C) 3) as [H3|H3].
  - assert (K : forall s i w, s < length C -> radius_among m C (examined (length C) (length C) s) (length C - 1) s i w <-> radius m C s i w).
    { intros s0 i0 w Hs0. rewrite <- (@C53_spec_all m C s0 i0 w HS Hs0). unfold radius_among, radius_k. pose proof (C99_examined_small C (s := s0) Hn H3 (Nat.le_refl _) Hs0) as HP.
      split; intros (d & l & Q1 & Q2 & Q3); exists d, l; (split; [exact Q1|]); (split; [|exact Q3]); rewrite Q2; apply Permutation_map; [exact HP|symmetry; exact HP]. }
    assert (v' = v). { apply Rle_antisym; [apply (B3' s i v B1); apply K; [apply B1|exact B2]|apply (B3 s' i' v' B1'); apply K; [apply B1'|exact B2']]. }
    subst v'. split; [apply Rle_refl|reflexivity].
  - split; [|lia]. assert (H : 0 < m) by lia. destruct B2 as (d & Hd & Hg). assert (Hs : s < length C) by apply B1.
    destruct (@mod_other (length C) s 1 Hs ltac:(lia) ltac:(lia)) as [T1 N1]. destruct (@mod_other (length C) s 2 Hs ltac:(lia) ltac:(lia)) as [T2 N2].
    apply Rle_trans with (Rmax (d ((s + 1) mod length C)) (d ((s + 2) mod length C))); [|apply Rmax_lub; apply Hg; auto].
    apply (B3' s i _ B1). apply C99_all_series; [exact HS|lia|exact Hs|]. exists (d ((s + 1) mod length C)), (d ((s + 2) mod length C)). split; [apply Hd; assumption|]. split; [apply Hd; assumption|reflexivity].
Qed.
Print Assumptions C99_subset_below.

(** ** Ten series, wave and flat in turn *)
Definition turns : list (list R) := [wave; flat; wave; flat; wave; flat; wave; flat; wave; flat].
Lemma turns_nth t : t < 10 -> nth t turns [] = if Nat.even t then wave else flat.
Proof. intro H. do 10 (destruct t as [|t]; [reflexivity|]). lia. Qed.
Lemma turns_searchable : searchable 4 turns.
Proof. split; [lia|]. split; [cbn; lia|]. intros S HS. unfold turns in HS. cbn [In] in HS. decompose [or] HS; subst; cbn; lia. Qed.
Lemma turns_sub s i : has_sub 4 turns s i <-> i = 0 /\ s < 10.
Proof. unfold has_sub. change (length turns) with 10. split; [intros [H1 H2]|intros [-> H2]]; (rewrite turns_nth in * by assumption); destruct (Nat.even s); cbn [wave flat length] in *; lia. Qed.
Lemma flat_flat : zdef flat flat = 0%R.
Proof. unfold zdef. rewrite even_flat. reflexivity. Qed.
Definition apart (s t : nat) : R := if Bool.eqb (Nat.even s) (Nat.even t) then 0%R else 2%R.
Lemma turns_match s t : s < 10 -> t < 10 -> best_match 4 turns s 0 t (apart s t).
Proof.
  intros Hs Ht. assert (E : zdef (sub 4 (nth t turns []) 0) (sub 4 (nth s turns []) 0) = apart s t).
  { rewrite !turns_nth by assumption. unfold apart. destruct (Nat.even s), (Nat.even t); cbn [Bool.eqb]; [apply wave_wave|apply flat_wave|apply wave_flat|apply flat_flat]. }
  split; [exists 0; split; [apply turns_sub; auto|exact E]|]. intros r Hr. apply turns_sub in Hr. destruct Hr as [-> _]. rewrite E. apply Rle_refl.
Qed.
Lemma turns_matches s : s < 10 -> matches 4 turns s 0 (apart s).
Proof. intros Hs t Ht _. apply turns_match; [exact Hs|exact Ht]. Qed.
Definition off (b : bool) : R := if b then 0%R else 2%R.
Lemma off_perm (l : list bool) : Permutation (map off l) (repeat 0%R (length (filter (fun b => b) l)) ++ repeat 2%R (length (filter negb l))).
Proof.
  induction l as [|b l IH]; [reflexivity|]. destruct b; cbn [map filter negb length repeat app off]; rewrite IH; [reflexivity|]. apply Permutation_middle.
Qed.
Lemma off_sorted a b : StronglySorted Rle (repeat 0%R a ++ repeat 2%R b).
Proof.
  assert (F : forall x y c, (x <= y)%R -> Forall (Rle x) (repeat y c)) by (intros x y c Hxy; induction c; cbn [repeat]; constructor; assumption).
  induction a as [|a IH]; cbn [repeat app].
  - induction b as [|b IH]; cbn [repeat]; constructor; [exact IH|]. apply F. lra.
  - constructor; [exact IH|]. apply Forall_app. split; apply F; lra.
Qed.
Lemma apart_off s ts : map (apart s) ts = map off (map (fun t => Bool.eqb (Nat.even s) (Nat.even t)) ts).
Proof. rewrite map_map. reflexivity. Qed.
(** Every series has four equal ones among the others. *)
Lemma turns_true s : s < 10 -> radius_k 4 turns 4 s 0 0.
Proof.
  intro Hs. set (bs := map (fun t => Bool.eqb (Nat.even s) (Nat.even t)) (others turns s)).
  assert (E : length (filter (fun b => b) bs) = 4 /\ length (filter negb bs) = 5).
  { unfold bs, others. change (length turns) with 10. clear bs. do 10 (destruct s as [|s]; [split; reflexivity|]). lia. }
  exists (apart s), (repeat 0%R (length (filter (fun b => b) bs)) ++ repeat 2%R (length (filter negb bs))). split; [apply turns_matches, Hs|]. split; [rewrite apart_off; apply Permutation_sym, off_perm|]. split; [apply off_sorted|].
  destruct E as [-> ->]. split; [lia|reflexivity].
Qed.
Lemma turns_code s v : s < 10 -> radius_among 4 turns (examined 10 5 s) 4 s 0 v -> v = 2%R.
Proof.
  intros Hs Hv. destruct turns_searchable as (Hm & Hn & HC).
  assert (EX : forall t, In t (examined 10 5 s) -> t < 10 /\ t <> s) by (intros t Ht; apply (@examined_other 10 5 s t); [lia|lia|exact Hs|exact Ht]).
  apply (@among_iff 4 turns ltac:(lia) HC _ 4 s 0 v EX) in Hv. destruct Hv as [_ Hv].
  rewrite (map_ext_in _ (apart s)) in Hv.
  2:{ intros t Ht. destruct (EX t Ht) as [H1 H2]. symmetry. apply best_match_dm; [lia|exact HC|exact H1|]. apply turns_match; assumption. }
  rewrite apart_off in Hv. set (bs := map (fun t => Bool.eqb (Nat.even s) (Nat.even t)) (examined 10 5 s)) in Hv.
  assert (E : length (filter (fun b => b) bs) = 3 /\ length (filter negb bs) = 6).
  { unfold bs. clear - Hs. do 10 (destruct s as [|s]; [split; reflexivity|]). lia. }
  rewrite (@sorted_unique _ (rsort_sorted _) _ (off_sorted (length (filter (fun b => b) bs)) (length (filter negb bs)))) in Hv; [|rewrite rsort_perm; apply off_perm].
  destruct E as [E1 E2]. rewrite E1, E2 in Hv. cbn in Hv. congruence.
Qed.

(** With [k] = 5 the returned radius is 2, although every series has four others at distance 0: the reported radius can also be
    too large. *)
Theorem C99_too_large_refuted : exists m C k, searchable m C /\ 2 <= k /\ k <= length C /\
  forall mem memb argsort set_order shuffle, argsorts argsort -> orders_sets set_order -> (forall l, Permutation (shuffle l) l) ->
  exists s i v, find_consensus_motif_subset mem memb argsort set_order shuffle (fun _ _ => never) (finc C) (Z.of_nat m) (Z.of_nat k) = Ok (mkCm (Fin v) (Z.of_nat s) (Z.of_nat i)) /\
    forall s' i', has_sub m C s' i' -> exists v', radius_k m C (k - 1) s' i' v' /\ (v' + 2 <= v)%R.
Proof.
  exists 4, turns, 5. split; [apply turns_searchable|]. split; [lia|]. split; [cbn; lia|]. intros mem memb argsort set_order shuffle Ha Hso Hsh.
  destruct (@C99_examined mem memb argsort set_order shuffle 4 turns 5 Ha Hso Hsh turns_searchable ltac:(lia) ltac:(cbn; lia)) as (s & i & v & E & (B1 & B2 & _)). exists s, i, v. split; [exact E|].
  apply turns_sub in B1. destruct B1 as [-> Hs]. assert (v = 2%R) by (apply (@turns_code s v Hs); exact B2). subst v.
  intros s' i' HB. apply turns_sub in HB. destruct HB as [-> Hs']. exists 0%R. split; [apply turns_true, Hs'|lra].
Qed.
Print Assumptions C99_too_large_refuted.

(** *** Instances *)
Example C99_example_examined : examined 6 5 4 = [5; 0; 1; 1; 1].
Proof. reflexivity. Qed.
(** The collection of PropOstinato: with all four series, the returned radius is 0 and the true one is 2. *)
Example C99_example_below : exists s i s' i' v, find_consensus_motif (fun _ => NaN) (fun _ => false) argsort_insert (finc odd_one) 4 = Ok (mkCm (Fin 2%R) (Z.of_nat s) (Z.of_nat i)) /\
  find_consensus_motif_subset (fun _ => NaN) (fun _ => false) argsort_insert dedup (fun l => l) (fun _ _ => never) (finc odd_one) 4 4 = Ok (mkCm (Fin v) (Z.of_nat s') (Z.of_nat i')) /\ (v <= 2)%R.
Proof.
  destruct (@C99_subset_below (fun _ => NaN) (fun _ => false) argsort_insert dedup (fun l => l) 4 odd_one argsorts_insert dedup_orders ltac:(reflexivity) odd_one_searchable) as (s & i & v & s' & i' & v' & E & E' & H & _).
  destruct C52_example as (s0 & E0). change (Z.of_nat 4) with 4%Z in *. rewrite E in E0. assert (v = 2%R) by congruence. subst v. exists s, i, s', i', v'. auto.
Qed.
Example C99_example_agree : exists s o0 o rs, find_consensus_motif (fun _ => NaN) (fun _ => false) argsort_insert (finc odd_one) 4 = Ok (mkCm (Fin 2%R) (Z.of_nat s) 0) /\
  ost_new (fun _ => NaN) (fun _ => false) (fun l => l) (finc odd_one) 4 = Ok o0 /\ calculates dedup [whole] o0 = Ok o /\ ost_radii o None = Ok rs /\ smallest rs 2.
Proof.
  assert (Hc : sensible_calls [whole]) by (repeat constructor; cbn; unfold Qle; cbn; lia).
  destruct (@C99_agree (fun _ => NaN) (fun _ => false) argsort_insert dedup (fun l => l) 4 odd_one [whole] argsorts_insert dedup_orders ltac:(reflexivity) odd_one_searchable Hc ltac:(left; reflexivity)) as (s & i & v & o0 & o & rs & E & E0 & E1 & E2 & _ & H).
  destruct C52_example as (s0 & X). change (Z.of_nat 4) with 4%Z in *. exists s0, o0, o, rs. assert (v = 2%R) by congruence. subst v. auto.
Qed.

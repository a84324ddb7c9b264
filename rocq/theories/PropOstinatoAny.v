(** * PropOstinatoAny: anytime calculation of the radii of a collection *)
From Coq Require Import QArith Reals Lra Sorted Permutation.
From Verif Require Import Np NpFacts Inst Mat SLog MProfile MZnorm MCalc MMulti MOstinato SReal SCalc SMixed SGen SOstinato PSort PArith PZdist PZgeo PZnorm POstinato POstinatoSub POstinatoAny PropCalc PropZnorm PropOstinato.
Set Implicit Arguments.
Open Scope nat_scope.

(** A call of calculate: when each of the calculators is interrupted, and the fraction *)
Definition call : Type := (nat -> nat -> bool) * request.
(** calculate(1.0), not interrupted *)
Definition whole : call := (fun _ => never, RFloat (Fin 1%Q)).
(** Some calls, one after the other *)
Definition calculates (set_order : list nat -> list nat) (calls : list call) (o : @ostinato R) : res (@ostinato R) :=
  foldM (fun o (c : call) => ost_calculate set_order (fst c) o (snd c)) calls o.
Definition sensible_calls (calls : list call) : Prop := Forall (fun c : call => sensible (snd c)) calls.
(** The radius that get_radii(k_best) is meant to give *)
Definition wanted (m : nat) (C : list (list R)) (k_best : option nat) (s i : nat) (v : R) : Prop :=
  match k_best with None => radius m C s i v | Some k => radius_k m C k s i v end.
Definition k_best_ok (C : list (list R)) (k_best : option nat) : Prop := match k_best with None => True | Some k => 1 <= k /\ k < length C end.
(** One radius for every subsequence of every series *)
Definition shaped (m : nat) (C : list (list R)) (rs : list (list (num R))) : Prop := length rs = length C /\ forall s, s < length C -> length (nth s rs []) = length (nth s C []) - m + 1.
Definition at2 (rs : list (list (num R))) (s i : nat) : option (num R) := nth_error (nth s rs []) i.

Section Oracles.
  Variables (mem : nat -> num R) (memb : nat -> bool) (set_order : list nat -> list nat) (shuffle : list Z -> list Z) (m : nat) (C : list (list R)).
  Hypothesis HSO : orders_sets set_order.
  Hypothesis HSH : forall l, Permutation (shuffle l) l.
  Hypothesis Hm : 0 < m.
  Hypothesis Hn : 2 <= length C.
  Hypothesis HC : forall S, In S C -> m <= length S.

  Lemma wanted_unique kb s i v v' : s < length C -> wanted m C kb s i v -> wanted m C kb s i v' -> v = v'.
  Proof.
    intro Hs. destruct kb as [k|]; cbn [wanted].
    - apply radius_k_unique; assumption.
    - intros H1 H2. rewrite (radius_rad Hm HC Hn Hs H1), (radius_rad Hm HC Hn Hs H2). reflexivity.
  Qed.

  Lemma anytime kb c1 c2 : k_best_ok C kb -> sensible_calls (c1 ++ c2) ->
    exists o0 o1 o2 rs1 rs2, ost_new mem memb shuffle (finc C) (Z.of_nat m) = Ok o0 /\
      calculates set_order c1 o0 = Ok o1 /\ calculates set_order c2 o1 = Ok o2 /\
      ost_radii o1 (option_map Z.of_nat kb) = Ok rs1 /\ ost_radii o2 (option_map Z.of_nat kb) = Ok rs2 /\ shaped m C rs1 /\ shaped m C rs2 /\
      forall s i v, has_sub m C s i -> wanted m C kb s i v -> exists v1 v2, at2 rs1 s i = Some v1 /\ at2 rs2 s i = Some v2 /\ fleb v2 v1 = true /\ fleb (Fin v) v2 = true /\
        ((exists calls, c1 ++ c2 = calls ++ [whole]) -> v2 = Fin v).
  Proof.
    intros Hk Hc. destruct (radii_two mem memb shuffle HSO HSH C Hm HC kb c1 c2 Hn Hk Hc) as (o0 & o1 & o2 & R1 & R2 & E0 & E1 & E2 & G1 & G2 & L1 & L2 & H).
    assert (NL : forall rs s (r : list (num R)), nth_error rs s = Some r -> nth s rs [] = r) by (intros; apply nth_error_nth; assumption).
    exists o0, o1, o2, R1, R2. do 5 (split; [assumption|]). split; [|split].
    - split; [exact L1|]. intros s Hs. destruct (H s Hs) as (r1 & r2 & N1 & N2 & M1 & M2 & _). rewrite (NL _ _ _ N1), M1. unfold cols, ser. assert (m <= length (nth s C [])) by (apply HC, nth_In, Hs). lia.
    - split; [exact L2|]. intros s Hs. destruct (H s Hs) as (r1 & r2 & N1 & N2 & M1 & M2 & _). rewrite (NL _ _ _ N2), M2. unfold cols, ser. assert (m <= length (nth s C [])) by (apply HC, nth_In, Hs). lia.
    - intros s i v [Hs Hi] Hv. destruct (H s Hs) as (r1 & r2 & N1 & N2 & M1 & M2 & HV). destruct (HV i) as (v1 & v2 & w & V1 & V2 & V3 & V4 & V5 & V6).
      { unfold cols, ser. lia. }
      assert (w = v) by (apply (@wanted_unique kb s i); [exact Hs|exact V3|exact Hv]). subst w. exists v1, v2. unfold at2. rewrite (NL _ _ _ N1), (NL _ _ _ N2). auto.
  Qed.
End Oracles.

(** C54: whatever the fractions and interruptions, the calculations succeed, no reported radius is smaller than the true radius,
    and further calls never increase one. *)
Theorem C54_anytime : forall mem memb set_order shuffle m C k_best c1 c2,
  orders_sets set_order -> (forall l, Permutation (shuffle l) l) -> 0 < m -> 2 <= length C -> (forall S, In S C -> m <= length S) ->
  k_best_ok C k_best -> sensible_calls (c1 ++ c2) ->
  exists o0 o1 o2 rs1 rs2, ost_new mem memb shuffle (finc C) (Z.of_nat m) = Ok o0 /\
    calculates set_order c1 o0 = Ok o1 /\ calculates set_order c2 o1 = Ok o2 /\
    ost_radii o1 (option_map Z.of_nat k_best) = Ok rs1 /\ ost_radii o2 (option_map Z.of_nat k_best) = Ok rs2 /\ shaped m C rs1 /\ shaped m C rs2 /\
    forall s i v, has_sub m C s i -> wanted m C k_best s i v ->
      exists v1 v2, at2 rs1 s i = Some v1 /\ at2 rs2 s i = Some v2 /\ fleb v2 v1 = true /\ fleb (Fin v) v2 = true.
Proof.
  intros mem memb set_order shuffle m C kb c1 c2 HSO HSH Hm Hn HC Hk Hc. destruct (@anytime mem memb set_order shuffle m C HSO HSH Hm Hn HC kb c1 c2 Hk Hc) as (o0 & o1 & o2 & rs1 & rs2 & E0 & E1 & E2 & G1 & G2 & S1 & S2 & H).
  exists o0, o1, o2, rs1, rs2. do 7 (split; [assumption|]). intros s i v Hs Hv. destruct (H s i v Hs Hv) as (v1 & v2 & X1 & X2 & X3 & X4 & _). exists v1, v2. auto.
Qed.

(** C54: once calculate(1.0) has run to its end, before or after other calls, the reported radii are exact. *)
Theorem C54_complete : forall mem memb set_order shuffle m C k_best calls,
  orders_sets set_order -> (forall l, Permutation (shuffle l) l) -> 0 < m -> 2 <= length C -> (forall S, In S C -> m <= length S) ->
  k_best_ok C k_best -> sensible_calls calls -> In whole calls ->
  exists o0 o rs, ost_new mem memb shuffle (finc C) (Z.of_nat m) = Ok o0 /\ calculates set_order calls o0 = Ok o /\
    ost_radii o (option_map Z.of_nat k_best) = Ok rs /\ shaped m C rs /\
    forall s i v, has_sub m C s i -> wanted m C k_best s i v -> at2 rs s i = Some (Fin v).
Proof.
  intros mem memb set_order shuffle m C kb calls HSO HSH Hm Hn HC Hk Hc Hin. apply in_split in Hin. destruct Hin as (l1 & l2 & ->).
  assert (EL : l1 ++ whole :: l2 = (l1 ++ [whole]) ++ l2) by (rewrite <- app_assoc; reflexivity). rewrite EL in *.
  assert (Hc1 : sensible_calls ([] ++ (l1 ++ [whole]))). { apply Forall_app in Hc. apply Hc. }
  destruct (@anytime mem memb set_order shuffle m C HSO HSH Hm Hn HC kb (l1 ++ [whole]) l2 Hk Hc) as (o0 & o1 & o2 & rs1 & rs2 & E0 & E1 & E2 & G1 & G2 & S1 & S2 & H).
  destruct (@anytime mem memb set_order shuffle m C HSO HSH Hm Hn HC kb [] (l1 ++ [whole]) Hk Hc1) as (o0' & o1' & o2' & rs1' & rs2' & E0' & E1' & E2' & G1' & G2' & S1' & S2' & H').
  assert (o0' = o0) by congruence. subst o0'. injection E1' as <-. assert (o2' = o1) by congruence. subst o2'. assert (rs2' = rs1) by congruence. subst rs2'.
  exists o0, o2, rs2. split; [exact E0|]. split; [unfold calculates in *; rewrite foldM_app, E1; exact E2|]. split; [exact G2|]. split; [exact S2|].
  intros s i v Hs Hv. destruct (H s i v Hs Hv) as (v1 & v2 & X1 & X2 & X3 & X4 & _). destruct (H' s i v Hs Hv) as (_ & v1' & _ & Y2 & _ & _ & Y5). assert (v1' = v1) by congruence. subst v1'.
  rewrite (Y5 ltac:(exists l1; reflexivity)) in *. rewrite X2. f_equal. destruct v2 as [| |w|]; try discriminate. cbn in X3, X4. apply negb_true_iff in X3. apply negb_true_iff in X4. f_equal.
  unfold Rltb in *. destruct (Rlt_dec v w), (Rlt_dec w v); try discriminate. lra.
Qed.

(** C54: what get_radii does with other values of k_best.  Zero and negative values count from the largest radius, so that
    get_radii(0) reports what get_radii(n - 1) reports; values out of range are rejected. *)
Lemma pyget_wrap {T} (l : list T) k : (1 - Z.of_nat (length l) <= k)%Z -> (k <= 0)%Z -> pyget l (k - 1) = pyget l (k + Z.of_nat (length l) - 1).
Proof.
  intros H1 H2. unfold pyget. set (n := Z.of_nat (length l)) in *.
  replace (k - 1 <? - n)%Z with false by (symmetry; apply Z.ltb_ge; lia). replace (n <=? k - 1)%Z with false by (symmetry; apply Z.leb_gt; lia).
  replace (k + n - 1 <? - n)%Z with false by (symmetry; apply Z.ltb_ge; lia). replace (n <=? k + n - 1)%Z with false by (symmetry; apply Z.leb_gt; lia).
  cbn [orb]. replace (k - 1 <? 0)%Z with true by (symmetry; apply Z.ltb_lt; lia). replace (k + n - 1 <? 0)%Z with false by (symmetry; apply Z.ltb_ge; lia). do 2 f_equal. lia.
Qed.
Lemma mapM_ext_in {S T} (f g : S -> res T) l : (forall x, In x l -> f x = g x) -> mapM f l = mapM g l.
Proof. induction l as [|x l IH]; intro H; [reflexivity|]. cbn [mapM]. rewrite (H x) by (left; reflexivity). rewrite IH; [reflexivity|]. intros; apply H; right; assumption. Qed.

Theorem C54_other_k : forall mem memb set_order shuffle m C calls,
  orders_sets set_order -> (forall l, Permutation (shuffle l) l) -> 0 < m -> 2 <= length C -> (forall S, In S C -> m <= length S) -> sensible_calls calls ->
  exists o0 o, ost_new mem memb shuffle (finc C) (Z.of_nat m) = Ok o0 /\ calculates set_order calls o0 = Ok o /\
    (forall k, (2 - Z.of_nat (length C) <= k <= 0)%Z -> ost_radii o (Some k) = ost_radii o (Some (k + (Z.of_nat (length C) - 1))%Z)) /\
    (forall k, (Z.of_nat (length C) <= k \/ k < 2 - Z.of_nat (length C))%Z -> ost_radii o (Some k) = Err IndexError).
Proof.
  intros mem memb set_order shuffle m C calls HSO HSH Hm Hn HC Hc. assert (Hc' : sensible_calls (calls ++ [])) by (rewrite app_nil_r; exact Hc).
  destruct (ost_two mem memb shuffle HSO HSH C Hm HC calls [] Hc') as (o0 & o1 & o2 & E0 & E1 & _ & _ & LM & H). exists o0, o1. split; [exact E0|]. split; [exact E1|].
  assert (HR : forall refs, In refs (os_mps o1) -> exists mps, mapM (read_mp (os_calcs o1)) refs = Ok mps /\ length mps = length C - 1).
  { intros refs Hin. apply In_nth_error in Hin. destruct Hin as (s & Es). assert (Hs : s < length C) by (rewrite <- LM; apply nth_error_Some; congruence). destruct (H s Hs) as (refs' & L & Er & EL & M1 & _). assert (refs' = refs) by congruence. subst refs'.
    eexists. split; [exact M1|]. rewrite map_length, <- (map_length fst), EL, others_eq by exact Hs. rewrite app_length, !seq_length. lia. }
  split.
  - intros k Hk. unfold ost_radii. apply mapM_ext_in. intros refs Hin. destruct (HR refs Hin) as (mps & EM & LL). rewrite EM. cbn [bind]. rewrite (pyget_wrap mps) by lia. replace (k + (Z.of_nat (length C) - 1) - 1)%Z with (k + Z.of_nat (length mps) - 1)%Z by lia.
    destruct (pyget mps (k + Z.of_nat (length mps) - 1)); [|reflexivity]. cbn [bind]. apply mapM_ext_in. intros col Hcol. unfold axis0 in Hcol. apply in_map_iff in Hcol. destruct Hcol as (p & <- & _).
    assert (LF : length (fsort (map (fun row : list (num R) => nth p row NaN) mps)) = length mps) by (rewrite fsort_length, map_length; reflexivity). rewrite pyget_wrap by (rewrite ?LF; lia). rewrite LF. reflexivity.
  - intros k Hk. unfold ost_radii. destruct (os_mps o1) as [|refs rest] eqn:EO; [cbn in LM; lia|]. cbn [mapM]. destruct (HR refs ltac:(left; reflexivity)) as (mps & EM & LL). rewrite EM. cbn [bind].
    unfold pyget. replace ((k - 1 <? - Z.of_nat (length mps))%Z || (Z.of_nat (length mps) <=? k - 1)%Z) with true; [reflexivity|]. symmetry. apply orb_true_iff. destruct Hk as [Hk|Hk]; [right; apply Z.leb_le; lia|left; apply Z.ltb_lt; lia].
Qed.

Print Assumptions C54_anytime.
Print Assumptions C54_complete.
Print Assumptions C54_other_k.

(** Three equal series and a flat one, in one go: the best match of the first series is at distance 0, the worst at distance 2. *)
Example C54_example : exists o0 o rs rs1,
  ost_new (fun _ => NaN) (fun _ => false) (fun l => l) (finc odd_one) 4 = Ok o0 /\ calculates dedup [(fun _ => never, RInt 1); whole] o0 = Ok o /\
  ost_radii o None = Ok rs /\ at2 rs 0 0 = Some (Fin 2%R) /\ ost_radii o (Some 1%Z) = Ok rs1 /\ at2 rs1 0 0 = Some (Fin 0%R).
Proof.
  assert (Hc : sensible_calls [(fun _ => never, RInt 1); whole]) by (repeat constructor; cbn; unfold Qle; cbn; lia).
  destruct odd_one_searchable as (Hm & Hn & HC).
  destruct (@C54_complete (fun _ => NaN) (fun _ => false) dedup (fun l => l) 4 odd_one None _ dedup_orders ltac:(reflexivity) ltac:(lia) Hn HC I Hc ltac:(right; left; reflexivity)) as (o0 & o & rs & E0 & E1 & E2 & _ & H).
  destruct (@C54_complete (fun _ => NaN) (fun _ => false) dedup (fun l => l) 4 odd_one (Some 1) _ dedup_orders ltac:(reflexivity) ltac:(lia) Hn HC ltac:(cbn; lia) Hc ltac:(right; left; reflexivity)) as (o0' & o' & rs' & E0' & E1' & E2' & _ & H').
  assert (o0' = o0) by congruence. subst o0'. assert (o' = o) by congruence. subst o'. exists o0, o, rs, rs'. split; [exact E0|]. split; [exact E1|]. split; [exact E2|].
  assert (HS : has_sub 4 odd_one 0 0) by (split; cbn; lia).
  assert (HM : matches 4 odd_one 0 0 (fun t => zdef (nth t odd_one []) wave)).
  { intros t Ht Hts. cbn in Ht. split; [|intros r Hr; destruct (odd_one_sub Hr) as [-> _]; do 4 (destruct t; [apply Rle_refl|]); lia]. exists 0. do 4 (destruct t; [split; [split; cbn; lia|reflexivity]|]). lia. }
  split; [|split; [exact E2'|]].
  - apply H; [exact HS|]. exists (fun t => zdef (nth t odd_one []) wave). split; [exact HM|]. split; [exists 3; split; [cbn; lia|apply flat_wave]|]. intros t [Ht Hts]. cbn in Ht. do 4 (destruct t as [|t]; [cbn [nth odd_one]; rewrite ?wave_wave, ?flat_wave; lra|]). lia.
  - apply H'; [exact HS|]. exists (fun t => zdef (nth t odd_one []) wave), [0; 0; 2]%R. split; [exact HM|]. split; [cbn [others odd_one length seq filter Nat.eqb negb map nth]; rewrite wave_wave, flat_wave; reflexivity|]. split; [repeat constructor; lra|]. split; [lia|reflexivity].
Qed.

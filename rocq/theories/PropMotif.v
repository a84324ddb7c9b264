(** * Property C64: motifs and discords, end to end *)
From Coq Require Import QArith Permutation Reals Lra.
From Verif Require Import Np NpFacts Mat SReal PZdist PZgeo MUtil SLog MProfile MCalc SCalc SMixed SEnd SGen PSort PMulti Inst MZnorm MInsights SInsights PInsights PArith PropFilter PropEnd.
Set Implicit Arguments.
Open Scope nat_scope.

(** Each choice is preferred to everything that is more than [d] from the earlier choices. *)
Lemma greedy_each A (NA : NumOps A) (better : A -> A -> bool) array d chosen out : greedy better array d chosen out ->
  forall p j, nth_error out p = Some j -> exists v, nth_error array j = Some (Fin v) /\
    forall j' v', nth_error array j' = Some (Fin v') -> (forall i, In i chosen -> apart d j' i) ->
      (forall q i, q < p -> nth_error out q = Some i -> apart d j' i) -> better v' v = false.
Proof.
  intro G. induction G as [chosen Hno|chosen i v rest [Ev Hap] Hbest G IH]; intros p j Ep; [destruct p; discriminate|].
  destruct p as [|p].
  - cbn in Ep. injection Ep as <-. exists v. split; [exact Ev|]. intros j' v' Ev' Hch _. apply (Hbest j' v'). split; assumption.
  - cbn in Ep. destruct (IH p j Ep) as (u & Eu & Hu). exists u. split; [exact Eu|]. intros j' v' Ev' Hch Hq. apply (Hu j' v' Ev').
    + intros k [<-|Hk]; [apply (Hq 0 i); [lia|reflexivity]|apply Hch, Hk].
    + intros q k Hlt Eq. apply (Hq (Datatypes.S q) k); [lia|exact Eq].
Qed.

Lemma greedy_covers A (NA : NumOps A) (better : A -> A -> bool) array d chosen out : greedy better array d chosen out ->
  forall j v, nth_error array j = Some (Fin v) -> exists i, (In i chosen \/ In i out) /\ ~ apart d j i.
Proof.
  intro G. induction G as [chosen Hno|chosen i v rest _ _ G IH]; intros j u Eu.
  - assert (H : ~ forall i, In i chosen -> apart d j i) by (intro H; apply (Hno j u); split; assumption).
    assert (D : forall l, (exists i, In i l /\ ~ apart d j i) \/ forall i, In i l -> apart d j i).
    { clear. induction l as [|x l [(i & Hi & Ha)|IH]]; [right; intros i []|left; exists i; split; [right; exact Hi|exact Ha]|].
      destruct (lt_dec d (j - x)) as [H1|H1]; [right; intros i [<-|Hi]; [left; exact H1|apply IH, Hi]|].
      destruct (lt_dec d (x - j)) as [H2|H2]; [right; intros i [<-|Hi]; [right; exact H2|apply IH, Hi]|].
      left. exists x. split; [left; reflexivity|intros [?|?]; contradiction]. }
    destruct (D chosen) as [(i & Hi & Ha)|Ha]; [exists i; tauto|contradiction].
  - destruct (IH j u Eu) as (k & [[<-|Hk]|Hk] & Ha); [exists i|exists k|exists k]; (split; [|exact Ha]); cbn; tauto.
Qed.

(** Subsequence [j] of the series may be matched with subsequence [r] of the query. *)
Definition pair_ok (b : Z) (h w j r : nat) : Prop := j < w /\ outside b h j r.

(** C64. The motifs: entry p of lowest_value_idxs is the position of a subsequence that, with the match recorded for it, has the
    smallest distance of all pairs whose subsequence of the series is more than [d] from the earlier motifs (in particular: the first is a
    closest pair); motifs are reported until every subsequence that has a match is within [d] of one. *)
Theorem C64_motifs : forall set_order shuffle mem memb sf m n nq (series : list (list R)) query buffer dim S Q calls d fuel,
  orders_sets set_order -> (forall l, Permutation (shuffle l) l) -> (1 <= sf)%Q ->
  proper_input m n nq series query buffer -> channel_data dim series query S Q -> Forall sensible_call calls -> completes calls -> n + 1 - m <= fuel ->
  let ok := pair_ok (buffer_used query (Z.of_nat m) buffer) (nq + 1 - m) (n + 1 - m) in
  let D j r := zdef (sub m Q r) (sub m S j) in
  exists mp idx out, zn_program set_order shuffle mem memb 0 sf (Z.of_nat m) (finss series) (option_map finss query) buffer (Z.of_nat dim) calls = Ok (mp, idx) /\
    lowest_value_idxs fuel mp (Z.of_nat d) = Ok out /\
    (forall p j, nth_error out p = Some j -> exists r, nth_error idx j = Some (Z.of_nat r) /\ nth_error mp j = Some (Fin (D j r)) /\ ok j r /\
       (forall q i, q < p -> nth_error out q = Some i -> apart d j i) /\
       forall j' r', ok j' r' -> (forall q i, q < p -> nth_error out q = Some i -> apart d j' i) -> (D j r <= D j' r')%R) /\
    (forall j r, ok j r -> exists i, In i out /\ ~ apart d j i).
Proof.
  intros set_order shuffle mem memb sf m n nq series query buffer dim S Q calls d fuel HSO HSH Hsf HI HC Hcalls Hcs Hfuel ok D.
  destruct (@C58_complete set_order shuffle mem memb sf m n nq series query buffer dim S Q calls HSO HSH Hsf HI HC Hcalls Hcs) as (mp & idx & E & L1 & L2 & HV).
  assert (Hw : 0 < n + 1 - m) by (destruct HI as (? & ? & _); lia).
  assert (Hne : mp <> []) by (intros ->; cbn in L1; lia).
  destruct (@C09_lemma R NumR OrdR mp d fuel Hne ltac:(lia)) as (out & Eo & G).
  exists mp, idx, out. split; [exact E|]. split; [exact Eo|].
  assert (Hfin : forall j v, nth_error mp j = Some (Fin v) -> exists r, nth_error idx j = Some (Z.of_nat r) /\ ok j r /\ v = D j r).
  { intros j v Ev. assert (Hj : j < n + 1 - m) by (rewrite <- L1; apply nth_error_Some; rewrite Ev; discriminate).
    destruct (HV j Hj) as (v' & i & E1 & E2 & HS). rewrite Ev in E1. injection E1 as <-. destruct HS as [[HS _]|(_ & r & Hr & -> & Er & _)]; [discriminate|].
    exists r. injection Er as ->. split; [exact E2|]. split; [split; assumption|reflexivity]. }
  assert (Hpair : forall j r, ok j r -> exists v, nth_error mp j = Some (Fin v) /\ (v <= D j r)%R).
  { intros j r [Hj Hr]. destruct (HV j Hj) as (v & i & E1 & _ & HS). destruct HS as [[-> HS]|(_ & r0 & _ & _ & -> & HS)].
    - specialize (HS r Hr). discriminate.
    - eexists. split; [exact E1|]. specialize (HS r Hr). cbn in HS. unfold D. revert HS. unfold Rltb. destruct (Rlt_dec _ _); [discriminate|]. intros _. lra. }
  split.
  - intros p j Ep. destruct (@greedy_each _ _ _ _ _ _ _ G p j Ep) as (v & Ev & HB). destruct (Hfin j v Ev) as (r & Er & Hok & ->). exists r. split; [exact Er|]. split; [exact Ev|]. split; [exact Hok|]. split.
    + intros q i Hq Eq. destruct (@C09_consequences_lemma R NumR OrdR mp d fuel out Hne ltac:(lia) Eo) as (_ & HA & _). destruct (HA p q j i Ep Eq ltac:(lia)) as [?|?]; [left|right]; assumption.
    + intros j' r' Hok' Hap. destruct (Hpair j' r' Hok') as (v' & Ev' & Hle). specialize (HB j' v' Ev' ltac:(intros ? []) Hap). cbn in HB.
      revert HB. unfold Rltb. destruct (Rlt_dec _ _); [discriminate|]. intros _. lra.
  - intros j r Hok. destruct (Hpair j r Hok) as (v & Ev & _). destruct (@greedy_covers _ _ _ _ _ _ _ G j v Ev) as (i & [[]|Hi] & Ha). exists i. split; assumption.
Qed.
Print Assumptions C64_motifs.

(** [r] is a nearest match of [j]. *)
Definition nearest (ok : nat -> nat -> Prop) (D : nat -> nat -> R) (j r : nat) : Prop := ok j r /\ forall r', ok j r' -> (D j r <= D j r')%R.

#[export] Instance OppR : OppLaws R.
Proof. split. intros a b. cbn. unfold Rltb. destruct (Rlt_dec (0 - a) (0 - b)), (Rlt_dec b a); try reflexivity; lra. Qed.

(** The discords: entry p of highest_value_idxs is the position of a subsequence whose nearest match, the recorded one, is the furthest, among
    the subsequences more than [d] from the earlier discords. *)
Theorem C64_discords : forall set_order shuffle mem memb sf m n nq (series : list (list R)) query buffer dim S Q calls d fuel,
  orders_sets set_order -> (forall l, Permutation (shuffle l) l) -> (1 <= sf)%Q ->
  proper_input m n nq series query buffer -> channel_data dim series query S Q -> Forall sensible_call calls -> completes calls -> n + 1 - m <= fuel ->
  let ok := pair_ok (buffer_used query (Z.of_nat m) buffer) (nq + 1 - m) (n + 1 - m) in
  let D j r := zdef (sub m Q r) (sub m S j) in
  exists mp idx out, zn_program set_order shuffle mem memb 0 sf (Z.of_nat m) (finss series) (option_map finss query) buffer (Z.of_nat dim) calls = Ok (mp, idx) /\
    highest_value_idxs fuel mp (Z.of_nat d) = Ok out /\
    (forall p j, nth_error out p = Some j -> exists r, nth_error idx j = Some (Z.of_nat r) /\ nth_error mp j = Some (Fin (D j r)) /\ nearest ok D j r /\
       (forall q i, q < p -> nth_error out q = Some i -> apart d j i) /\
       forall j' r', nearest ok D j' r' -> (forall q i, q < p -> nth_error out q = Some i -> apart d j' i) -> (D j' r' <= D j r)%R) /\
    (forall j r, ok j r -> exists i, In i out /\ ~ apart d j i).
Proof.
  intros set_order shuffle mem memb sf m n nq series query buffer dim S Q calls d fuel HSO HSH Hsf HI HC Hcalls Hcs Hfuel ok D.
  destruct (@C58_complete set_order shuffle mem memb sf m n nq series query buffer dim S Q calls HSO HSH Hsf HI HC Hcalls Hcs) as (mp & idx & E & L1 & L2 & HV).
  assert (Hw : 0 < n + 1 - m) by (destruct HI as (? & ? & _); lia).
  assert (Hne : mp <> []) by (intros ->; cbn in L1; lia).
  destruct (@C10_lemma R NumR OrdR OppR mp d fuel Hne ltac:(lia)) as (out & Eo & G).
  exists mp, idx, out. split; [exact E|]. split; [exact Eo|].
  assert (Hle : forall a b, Rltb a b = false -> (b <= a)%R) by (intros a b0; unfold Rltb; destruct (Rlt_dec _ _); [discriminate|intros _; lra]).
  assert (Hfin : forall j v, nth_error mp j = Some (Fin v) -> exists r, nth_error idx j = Some (Z.of_nat r) /\ nearest ok D j r /\ v = D j r).
  { intros j v Ev. assert (Hj : j < n + 1 - m) by (rewrite <- L1; apply nth_error_Some; rewrite Ev; discriminate).
    destruct (HV j Hj) as (v' & i & E1 & E2 & HS). rewrite Ev in E1. injection E1 as <-. destruct HS as [[HS _]|(_ & r & Hr & -> & Er & HS)]; [discriminate|].
    exists r. injection Er as ->. split; [exact E2|]. split; [split; [split; assumption|]|reflexivity]. intros r' [_ Hr']. apply Hle. exact (HS r' Hr'). }
  assert (Hpair : forall j r, ok j r -> exists v, nth_error mp j = Some (Fin v)).
  { intros j r [Hj Hr]. destruct (HV j Hj) as (v & i & E1 & _ & HS). destruct HS as [[-> HS]|(_ & r0 & _ & _ & -> & HS)].
    - specialize (HS r Hr). discriminate.
    - eexists. exact E1. }
  split.
  - intros p j Ep. destruct (@greedy_each _ _ _ _ _ _ _ G p j Ep) as (v & Ev & HB). destruct (Hfin j v Ev) as (r & Er & Hok & ->). exists r. split; [exact Er|]. split; [exact Ev|]. split; [exact Hok|]. split.
    + intros q i Hq Eq. destruct (@C10_consequences_lemma R NumR OrdR OppR mp d fuel out Hne ltac:(lia) Eo) as (_ & HA & _). destruct (HA p q j i Ep Eq ltac:(lia)) as [?|?]; [left|right]; assumption.
    + intros j' r' [Hok' Hmin] Hap. destruct (Hpair j' r' Hok') as (v' & Ev'). destruct (Hfin j' v' Ev') as (r0 & _ & [Hok0 Hmin0] & ->). pose proof (Hmin r0 Hok0). pose proof (Hmin0 r' Hok').
      specialize (HB j' (D j' r0) Ev' ltac:(intros ? []) Hap). cbn in HB. apply Hle in HB. lra.
  - intros j r Hok. destruct (Hpair j r Hok) as (v & Ev). destruct (@greedy_covers _ _ _ _ _ _ _ G j v Ev) as (i & [[]|Hi] & Ha). exists i. split; assumption.
Qed.
Print Assumptions C64_discords.

(** The hypotheses hold for the input of C58_example_hyps, and there is a motif there. *)
Example C64_example_hyps : forall d mem memb, exists mp idx j rest, zn_program quick (fun l => rev l) mem memb 0 2 2 (finss [[0; 1; 0; 0; 1; 0]%R; [4; 0; 3; 0; 4; 3]%R]) None None 1 (some_calls ++ [ADiags never (RFloat (Fin 1%Q))]) = Ok (mp, idx) /\
  lowest_value_idxs 5 mp (Z.of_nat d) = Ok (j :: rest).
Proof.
  intros d mem memb. destruct C58_example_hyps as (H1 & H2 & H3 & H4 & H5 & H6).
  assert (Hsf : (1 <= 2)%Q) by (vm_compute; discriminate). assert (Hfuel : 6 + 1 - 2 <= 5) by lia.
  destruct (@C64_motifs quick (fun l => rev l) mem memb 2 2 6 6 _ None None 1 _ _ _ d 5 H1 H2 Hsf H5 H6 H3 H4 Hfuel) as (mp & idx & out & E & Eo & _ & HC).
  destruct out as [|j rest]; [|exists mp, idx, j, rest; split; assumption].
  destruct (HC 0 2) as (i & [] & _). split; [lia|]. split; [lia|]. cbn. lia.
Qed.
(** The same program with the Euclidean distance, over integers: subsequences 0 and 2 are a closest pair; 4 is the discord. *)
Example C64_example : bind (eu_program_Z 2 [zs [9; 9; 9; 9; 9; 9]; zs [4; 0; 3; 0; 4; 3]]%Z None None 1 (some_calls ++ [ADiags never (RFloat (Fin 1%Q))]))
  (fun r => do lo <- lowest_value_idxs 5 (fst r) 2; do hi <- highest_value_idxs 5 (fst r) 1; Ok (lo, map (nth_error (snd r)) lo, hi)) = Ok ([0; 3], [Some 2; Some 1]%Z, [4; 0; 2]).
Proof. vm_compute. reflexivity. Qed.

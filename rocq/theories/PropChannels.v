(** * PropChannels: consumers of one channel that are bound to several generators *)
From Coq Require Import QArith Reals Lra Sorted Permutation.
From Verif Require Import Np NpFacts Inst Mat SLog MProfile MCounters MDist MContext MMulti MCalc SReal SCalc SStream SMixed SGen SFilter SEnd SEndStream SEndAll SEndCons SEndStreamAll
  PropMulti PropEnd PropEndAll PropEndStream PropEndStreamAll.
Set Implicit Arguments.
Open Scope nat_scope.

(** The same event for the first generator only *)
Definition first_channel {E} (e : event E) : event E :=
  match e with EDiag d vs => EDiag d (firstn 1 vs) | ECol c vs => ECol c (firstn 1 vs) | _ => e end.
(** A consumer class that ignores all other generators *)
Definition one_channel {C E} (c_step : C -> event E -> res C) : Prop := forall s e, c_step s e = c_step s (first_channel e).

Lemma one_channel_run C E (c_step : C -> event E -> res C) es : one_channel c_step -> forall s, foldM c_step es s = foldM c_step (map first_channel es) s.
Proof. intro H. induction es as [|e es IH]; intro s; [reflexivity|]. cbn [foldM map bind]. rewrite <- (H s e). destruct (c_step s e); [apply IH|reflexivity]. Qed.
Lemma first_told {A} (D : nat -> nat -> nat -> num A) h w self b t ids : map first_channel (told D h w self b t ids) = told D h w self b t (firstn 1 ids).
Proof.
  unfold told, mixed_calls. rewrite flat_map_concat_map, concat_map, map_map, <- flat_map_concat_map. apply flat_map_ext. intros [c n|ds]; cbn [part_calls].
  - unfold column_calls. rewrite map_map. apply map_ext. intro j. cbn [first_channel]. rewrite firstn_map. reflexivity.
  - unfold diagonal_calls. rewrite flat_map_concat_map, concat_map, map_map, <- flat_map_concat_map. apply flat_map_ext. intro d. destruct self; cbn [map first_channel]; rewrite ?firstn_map; reflexivity.
Qed.
Lemma first_history {A X} self m W Wq ndim tmb dim (valid : list X -> Prop) (F : nat -> list (gop X) -> nat -> list (num A)) ops p evs ids : history self m W Wq ndim tmb dim valid F ops p evs -> map first_channel (evs ids) = evs (firstn 1 ids).
Proof.
  induction 1 as [|ops op p p' evs evs' Hh IH Hd]; [reflexivity|]. rewrite map_app, IH. f_equal. destruct Hd.
  - destruct (lost W (s + n) - lost W s); [reflexivity|]. destruct self; reflexivity.
  - destruct (lost Wq (q + n) - lost Wq q); reflexivity.
  - rewrite map_map. apply map_ext. intro j. cbn [first_channel]. rewrite firstn_map. reflexivity.
Qed.

(** ** C94. Every consumer class except MultidimensionalMatrixProfileLR and DistanceMatrix ignores all generators but the first ... *)
Theorem C94_classes :
  one_channel (@mplr_step R NumR) /\ one_channel (@smp_step R NumR) /\ one_channel (@tc_step R NumR) /\ (forall argsort, one_channel (@dtc_step R NumR argsort)) /\ one_channel (@rp0_step R NumR) /\ one_channel (@rp_step R NumR) /\
  (forall M (man : ManagerOps M), one_channel (@cm_step R NumR M man)).
Proof.
  assert (R0 : forall T (vs : list (list T)), row0 (firstn 1 vs) = row0 vs) by (intros T [|v vs]; reflexivity).
  repeat match goal with |- _ /\ _ => split end.
  1-3, 5-6: intros s []; try reflexivity; cbn [mplr_step smp_step tc_step rp0_step rp_step first_channel]; unfold mplr_diag, mplr_col, smp_diag, smp_col, tc_diag, tc_col, rp0_col, rp_col; rewrite ?R0; reflexivity.
  - intros argsort s []; try reflexivity; cbn [dtc_step first_channel]; unfold dtc_col; rewrite ?R0; reflexivity.
  - intros M man s []; try reflexivity; cbn [cm_step first_channel]; unfold cm_diag, cm_col; rewrite R0; reflexivity.
Qed.
Print Assumptions C94_classes.
(** ... so that in complete programs it holds what it would hold with the first generator alone. *)
Theorem C94_anytime : forall e k m n nq series query buffer dims, world_ok e -> well_posed k m n nq series query buffer dims ->
  forall C (c_step : C -> event (num R) -> res C) consumers calls, one_channel c_step ->
  (forall ids init id, In (ids, init) consumers -> In id ids -> id < length dims) -> Forall sensible_call calls ->
  let h := nq + 1 - m in let w := n + 1 - m in let b := buffer_used query (Z.of_nat m) buffer in
  exists t, delivers query m n nq buffer calls t /\
    forall cns, kprogram e k c_step (Z.of_nat m) series query buffer (map Z.of_nat dims) consumers calls = Ok cns <->
      Forall2 (fun ci c => exists c0, snd ci (length (fst ci)) (Z.of_nat h) (Z.of_nat w) = Ok c0 /\
        foldM c_step (told (matrix_of k m dims series query) h w (is_self query) b t (firstn 1 (fst ci))) c0 = Ok c) consumers cns.
Proof.
  intros e k m n nq series query buffer dims HE HW C c_step consumers calls HO Hids Hcalls h w b.
  destruct (@C78_consumers e k m n nq series query buffer dims HE HW C c_step consumers calls Hids Hcalls) as (t & Ht & HT). exists t. split; [exact Ht|]. intro cns. rewrite HT. clear HT.
  clear Hids. split; intro H; (induction H as [|ci c l l' (c0 & E0 & E1) _ IH]; [constructor|]); (constructor; [|exact IH]); exists c0; (split; [exact E0|]).
  - rewrite <- first_told, <- one_channel_run by exact HO. exact E1.
  - rewrite (one_channel_run _ HO), first_told. exact E1.
Qed.
Print Assumptions C94_anytime.
Theorem C94_streaming : forall e k u m W qw ndim buffer dims, sur_ok e -> stream_posed k u m W qw ndim buffer dims ->
  forall C (c_step : C -> event (num R) -> res C) consumers ops p evs, one_channel c_step -> (forall ids init, In (ids, init) consumers -> forall d q s, init d q s = init 1 q s) ->
  (forall ids init id, In (ids, init) consumers -> ids <> [] /\ (In id ids -> id < length dims)) -> stream_history k u m W qw ndim buffer dims ops p evs ->
  forall cns, ksprogram e k c_step (Z.of_nat m) (Z.of_nat W) (option_map Z.of_nat qw) ndim buffer (map Z.of_nat dims) consumers ops = Ok cns <->
    ksprogram e k c_step (Z.of_nat m) (Z.of_nat W) (option_map Z.of_nat qw) ndim buffer (map Z.of_nat dims) (map (fun ci => (firstn 1 (fst ci), snd ci)) consumers) ops = Ok cns.
Proof.
  intros e k u m W qw ndim buffer dims HS HP C c_step consumers ops p evs HO HI Hids Hh cns.
  pose proof (@C86_consumers e k u m W qw ndim buffer dims HS HP C c_step consumers ops p evs (fun ids init id H => proj2 (Hids ids init id H)) Hh) as H1.
  pose proof (@C86_consumers e k u m W qw ndim buffer dims HS HP C c_step (map (fun ci => (firstn 1 (fst ci), snd ci)) consumers) ops p evs) as H2. cbn zeta in H1, H2. rewrite H1, H2; [|intros ids init id Hin Hid|exact Hh].
  - clear H1 H2. revert cns. assert (HL : forall ci, In ci consumers -> fst ci <> [] /\ forall d q s, snd ci d q s = snd ci 1 q s) by (intros [ids init] Hin; split; [exact (proj1 (Hids ids init 0 Hin))|exact (HI ids init Hin)]). clear HI Hids.
    induction consumers as [|ci consumers IH]; intro cns; [cbn; split; intro H; inversion H; constructor|]. cbn [map].
    assert (HE : forall c, (exists c0, snd ci (length (fst ci)) (Z.of_nat (match qw with Some q => q | None => W end + 1 - m)) (Z.of_nat (W + 1 - m)) = Ok c0 /\ foldM c_step (evs (fst ci)) c0 = Ok c) <->
      (exists c0, snd (firstn 1 (fst ci), snd ci) (length (fst (firstn 1 (fst ci), snd ci))) (Z.of_nat (match qw with Some q => q | None => W end + 1 - m)) (Z.of_nat (W + 1 - m)) = Ok c0 /\ foldM c_step (evs (fst (firstn 1 (fst ci), snd ci))) c0 = Ok c)).
    { intro c. cbn [fst snd]. destruct (HL ci ltac:(left; reflexivity)) as [_ HI]. rewrite (HI (length (firstn 1 (fst ci)))), (HI (length (fst ci))). rewrite <- (first_history (fst ci) Hh).
      split; intros (c0 & E0 & E1); exists c0; (split; [exact E0|]); [rewrite <- one_channel_run by exact HO; exact E1|rewrite (one_channel_run _ HO); exact E1]. }
    split; intro H; inversion H as [|? c ? l' Hc Hr]; subst; constructor; try (apply HE; exact Hc); apply IH; auto; intros ci' Hin; apply HL; right; exact Hin.
  - apply in_map_iff in Hin. destruct Hin as ([ids' init'] & E & Hin). injection E as <- <-. apply (proj2 (Hids ids' init' id Hin)). rewrite <- (firstn_skipn 1 ids'). apply in_or_app. left. exact Hid.
Qed.
Print Assumptions C94_streaming.

(** ** C95. A DistanceMatrix bound to none or several generators makes the program raise. *)
Theorem C95_anytime : forall e k m n nq series query buffer dims, world_ok e -> well_posed k m n nq series query buffer dims ->
  forall idss ids calls, (forall ids id, In ids idss -> In id ids -> id < length dims) -> Forall sensible_call calls -> In ids idss -> length ids <> 1 ->
  forall cns, kprogram e k dm_step (Z.of_nat m) series query buffer (map Z.of_nat dims) (map (fun ids => (ids, fun d q s => dm_init d (Z.to_nat q) (Z.to_nat s))) idss) calls <> Ok cns.
Proof.
  intros e k m n nq series query buffer dims HE HW idss ids calls Hids Hcalls Hin Hl cns E.
  destruct (@C78_consumers e k m n nq series query buffer dims HE HW _ dm_step (map (fun ids => (ids, fun d q s => dm_init d (Z.to_nat q) (Z.to_nat s))) idss) calls) as (t & _ & HT); [|exact Hcalls|].
  - intros ids0 init id Hc Hi. apply in_map_iff in Hc. destruct Hc as (x & Ex & Hx). injection Ex as -> _. eauto.
  - apply HT in E. clear HT Hids. revert cns E. induction idss as [|x idss IH]; intros cns E; [destruct Hin|]. cbn [map] in E. inversion E as [|? c ? cs (c0 & E0 & _) Hr]; subst. destruct Hin as [->|Hin]; [|exact (IH Hin _ Hr)].
    cbn [fst snd] in E0. unfold dm_init in E0. destruct (Nat.eqb_spec (length ids) 1); [contradiction|discriminate].
Qed.
Print Assumptions C95_anytime.
Theorem C95_streaming : forall e k u m W qw ndim buffer dims, sur_ok e -> stream_posed k u m W qw ndim buffer dims ->
  forall idss ids ops p evs, (forall ids id, In ids idss -> In id ids -> id < length dims) -> stream_history k u m W qw ndim buffer dims ops p evs -> In ids idss -> length ids <> 1 ->
  forall cns, ksprogram e k dm_step (Z.of_nat m) (Z.of_nat W) (option_map Z.of_nat qw) ndim buffer (map Z.of_nat dims) (map (fun ids => (ids, fun d q s => dm_init d (Z.to_nat q) (Z.to_nat s))) idss) ops <> Ok cns.
Proof.
  intros e k u m W qw ndim buffer dims HS HP idss ids ops p evs Hids Hh Hin Hl cns E.
  apply (@C86_consumers e k u m W qw ndim buffer dims HS HP _ dm_step _ ops p evs) in E; [|intros ids0 init id Hc Hi; apply in_map_iff in Hc; destruct Hc as (x & Ex & Hx); injection Ex as -> _; eauto|exact Hh].
  clear Hids. revert cns E. induction idss as [|x idss IH]; intros cns E; [destruct Hin|]. cbn [map] in E. inversion E as [|? c ? cs (c0 & E0 & _) Hr]; subst. destruct Hin as [->|Hin]; [|exact (IH Hin _ Hr)].
  cbn [fst snd] in E0. unfold dm_init in E0. destruct (Nat.eqb_spec (length ids) 1); [contradiction|discriminate].
Qed.
Print Assumptions C95_streaming.

(** Integers: the profile of generators 1 and 0 is that of generator 1; a DistanceMatrix raises. *)
Definition profile_Z ids := bind (zprogram mplr_step 1 two None (Some 0%Z) [0; 1]%Z [(ids, fun _ q s => Ok (mplr_init (Z.to_nat q) (Z.to_nat s)))] all_cols) (fun l => Ok (map (fun s => (mplr_mp s, mplr_idx s)) l)).
Example C94_example : profile_Z [1; 0] = profile_Z [1] /\ profile_Z [1; 0] <> profile_Z [0] /\ exists l, profile_Z [1; 0] = Ok l.
Proof. split; [vm_compute; reflexivity|]. split; [vm_compute; discriminate|]. eexists. vm_compute. reflexivity. Qed.
Definition splits_Z ids := bind (sprogram_Z smp_step 2 4 None 2 (Some 0%Z) [1; 0]%Z [(ids, fun _ q s => smp_init (fun _ => NaN) (fun _ => 77%Z) 2 (Z.to_nat q) (Z.to_nat s))] ops_Z) (fun l => Ok (map (fun s => (smp_mp s, smp_idx s)) l)).
Example C94_example_streaming : splits_Z [0; 1] = splits_Z [0] /\ splits_Z [0; 1] <> splits_Z [1] /\ exists l, splits_Z [0; 1] = Ok l.
Proof. split; [vm_compute; reflexivity|]. split; [vm_compute; discriminate|]. eexists. vm_compute. reflexivity. Qed.
Example C95_example : zprogram dm_step 1 two None (Some 0%Z) [0; 1]%Z [([1; 0], fun d q s => dm_init d (Z.to_nat q) (Z.to_nat s))] [] = Err RuntimeError /\
  sprogram_Z dm_step 2 4 None 2 (Some 0%Z) [1; 0]%Z [([1], fun d q s => dm_init d (Z.to_nat q) (Z.to_nat s)); ([], fun d q s => dm_init d (Z.to_nat q) (Z.to_nat s))] ops_Z = Err RuntimeError.
Proof. vm_compute. split; reflexivity. Qed.

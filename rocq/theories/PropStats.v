(** * PropStats: properties of distancematrix/math_tricks.py *)
From Coq Require Import QArith Reals Lra.
From Verif Require Import Np NpFacts MRing MStats SReal PStats.
Set Implicit Arguments.
Open Scope nat_scope.

(** C11. After any appends: data is the last N points, mean and std those of all its windows. *)
Theorem C11_stats : forall mem m (l : list R) chunks, 0 < m -> m <= length l ->
  let now := lastn (length l) (l ++ concat chunks) in
  exists s0 s, stats_new mem (fin l) (Z.of_nat m) = Ok s0 /\ foldM stats_append (map (map (@Fin R)) chunks) s0 = Ok s /\
    rb_view (ss_data s) = fin now /\ rb_view (ss_mean s) = fin (windowed mean m now) /\ rb_view (ss_std s) = fin (windowed std m now).
Proof.
  intros mem m l chunks Hm Hl now. destruct (stats_run mem l chunks Hm Hl) as (s0 & s & E0 & E1 & (_ & _ & (_ & _ & _ & V1 & _) & (_ & _ & _ & V2 & _) & (_ & _ & _ & V3 & _))).
  exists s0, s. auto.
Qed.
Print Assumptions C11_stats.

(** Windows that are too long are rejected. *)
Theorem C11_rejected : forall mem (l : list (num R)) m, (Z.of_nat (length l) < m)%Z -> stats_new mem l m = Err RuntimeError.
Proof. intros mem l m H. unfold stats_new. rewrite (proj2 (Z.ltb_lt _ _) H). reflexivity. Qed.
Print Assumptions C11_rejected.

(** The sliding functions, in one go *)
Theorem C11_sliding : forall (l : list R) m, 0 < m -> m <= length l ->
  sliding_mean_std (fin l) (Z.of_nat m) = Ok (fin (windowed mean m l), fin (windowed std m l)) /\
  sliding_mean_var (fin l) (Z.of_nat m) = Ok (fin (windowed mean m l), fin (windowed (fun x => mean (map (fun a => (a - mean x) * (a - mean x)) x)) m l))%R.
Proof. intros. apply sliding_fin; assumption. Qed.
Print Assumptions C11_sliding.

Example C11_example mem : exists s0 s, stats_new mem (fin [1; 3; 3]%R) 2 = Ok s0 /\ foldM stats_append (map (map (@Fin R)) [[7]; []; [1; 5]]%R) s0 = Ok s /\
  rb_view (ss_data s) = [Fin 7; Fin 1; Fin 5]%R /\ rb_view (ss_mean s) = [Fin 4; Fin 3]%R /\ rb_view (ss_std s) = [Fin 3; Fin 2]%R.
Proof.
  destruct (@C11_stats mem 2 [1; 3; 3]%R [[7]; []; [1; 5]]%R) as (s0 & s & E0 & E1 & E2 & E3 & E4); [lia|cbn; lia|].
  exists s0, s. split; [exact E0|]. split; [exact E1|]. split; [exact E2|].
  assert (Sq : forall x v, (0 <= v)%R -> x = (v * v)%R -> sqrt x = v) by (intros x v Hv ->; apply sqrt_square; exact Hv).
  split.
  - rewrite E3. cbn -[mean]. unfold mean, rsum. cbn [fold_right length INR].
    f_equal; [f_equal; lra|]. f_equal. f_equal. lra.
  - rewrite E4. cbn -[std]. unfold std, mean, rsum. cbn [map fold_right length INR].
    f_equal; [f_equal; apply Sq; lra|]. f_equal. f_equal. apply Sq; lra.
Qed.

(** * PropEndCount: ThresholdCounter consumers in every program, also those that mix columns and diagonals *)
From Coq Require Import QArith Reals Lra Permutation.
From Verif Require Import Np NpFacts Inst Mat MUtil SLog PLog MProfile MCounters SCounters PCounters SReservoir MEuclid MCalc SReal SCalc SMixed SGen SFilter SEnd PArith PMixed PEnd SEndAll PEndAll PEndKind SEndCons PEndCons PEndProg PEndRes PEndCount PropEnd PropEndAll.
Set Implicit Arguments.
Open Scope nat_scope.

(** ** C102. The consumer: after any columns and diagonals each count is the number of values of at most the threshold among those
    delivered for the column since, and including, the last time the column was delivered as a whole. *)
Theorem C102_consumer : forall (A : Type) (NA : NumOps A) (thr : list (num A)) h w (es : list (event (num A))),
  Forall no_shift es -> Forall (fits h w) es ->
  exists s, tc_run (tc_init thr h w) es = Ok s /\ tc_thr s = thr /\ is_mat (length thr) w (tc_counts s) /\
    forall i t c, nth_error thr i = Some t -> c < w -> mget (tc_counts s) i c = Ok (count_le t (map snd (sel all_rows (Z.of_nat c) (log (since c es))))).
Proof. intros A NA thr h w es Hn Hf. destruct (tc_any thr Hn Hf) as (s & E & H). exists s. auto. Qed.
Print Assumptions C102_consumer.

(** In every program of C78: a row at a distance of at most the threshold is counted as often as its cell was delivered since, and
    including, the last delivery of the column; trivial matches that are delivered (in columns) are at +inf. *)
Theorem C102_counters : forall e k m n nq series query buffer dims, world_ok e -> well_posed k m n nq series query buffer dims ->
  forall ids calls thr, (forall id, In id ids -> id < length dims) -> Forall sensible_call calls ->
  let h := nq + 1 - m in let w := n + 1 - m in let b := buffer_used query (Z.of_nat m) buffer in let D := matrix_of k m dims series query in
  exists t cns, delivers query m n nq buffer calls t /\
    kprogram e k tc_step (Z.of_nat m) series query buffer (map Z.of_nat dims) (map (fun id => ([id], fun _ q s => Ok (tc_init thr (Z.to_nat q) (Z.to_nat s)))) ids) calls = Ok cns /\
    Forall2 (fun id s => forall i x j, nth_error thr i = Some x -> j < w ->
      mget (tc_counts s) i j = Ok (list_sum (map (fun r => if fleb (masked b (D id) r j) x then weight (is_self query) t r j else 0) (seq 0 h)))) ids cns.
Proof.
  intros e k m n nq series query buffer dims HE HW ids calls thr Hids Hcalls h w b D. pose proof (pos_h HW) as Hh. apply (@kind_each e k m n nq series query buffer dims HE HW); [exact Hids|exact Hcalls|].
  intros t id Ht Hid. pose proof (delivers_fine HW Ht) as F.
  destruct (@tc_of R NumR (is_self query) h w b (D id) (@Dnan k m n nq series query dims id) (Dself HW (Hids id Hid)) Hh (fun r c _ _ => @matrix_ninf k m dims series query id r c) thr t F) as (s & E & _ & G).
  eexists _, s. split; [cbn beta; rewrite !Nat2Z.id; reflexivity|]. split; [exact E|]. exact G.
Qed.
Print Assumptions C102_counters.

(** When counts are right: after complete calculations, for a threshold below +inf, the count is never too low, and it is the number of
    rows within the threshold iff each of these rows was delivered once (since the column was last delivered). *)
Lemma sum_of_weights (p : nat -> bool) (wt : nat -> nat) h : (forall r, r < h -> p r = true -> 0 < wt r) ->
  forall n, how_many (fun r => r < h /\ p r = true) n -> n <= list_sum (map (fun r => if p r then wt r else 0) (seq 0 h)) /\
    (list_sum (map (fun r => if p r then wt r else 0) (seq 0 h)) = n <-> forall r, r < h -> p r = true -> wt r = 1).
Proof.
  intros Hw n Hn. assert (En : n = length (filter p (seq 0 h))).
  { eapply how_many_unique; [exact Hn|]. exists (filter p (seq 0 h)). split; [apply NoDup_filter, seq_NoDup|]. split; [|reflexivity]. intro r. rewrite filter_In, in_seq. split; intros [H1 H2]; (split; [lia|exact H2]). }
  subst n. clear Hn. assert (G : forall l, (forall r, In r l -> p r = true -> 0 < wt r) -> length (filter p l) <= list_sum (map (fun r => if p r then wt r else 0) l) /\
     (list_sum (map (fun r => if p r then wt r else 0) l) = length (filter p l) <-> forall r, In r l -> p r = true -> wt r = 1)).
  { clear. induction l as [|a l IH]; intro Hw; [cbn; split; [lia|split; [intros _ r []|reflexivity]]|]. destruct IH as [I1 I2]; [intros r Hr; apply Hw; right; exact Hr|].
    cbn [map filter]. change (list_sum (?a :: ?l)) with (a + list_sum l). destruct (p a) eqn:Ea; cbn [length].
    - specialize (Hw a (or_introl eq_refl) Ea). split; [lia|]. split.
      + intros E r [<-|Hr] Hp; [lia|]. apply I2; [lia|assumption..].
      + intro H. rewrite (proj2 I2); [|intros; apply H; [right|]; assumption]. rewrite (H a (or_introl eq_refl) Ea). lia.
    - split; [exact I1|]. cbn [Nat.add]. rewrite I2. split; intro H; [intros r [<-|Hr] Hp; [congruence|auto]|intros r Hr; apply H; right; exact Hr]. }
  destruct (G (seq 0 h)) as [G1 G2]; [intros r Hr; apply in_seq in Hr; apply Hw; lia|]. split; [exact G1|]. rewrite G2. split; intros H r Hr; apply H; [apply in_seq; lia|apply in_seq in Hr; lia].
Qed.

Theorem C102_right_iff : forall e k m n nq series query buffer dims, world_ok e -> well_posed k m n nq series query buffer dims ->
  forall ids calls thr, (forall id, In id ids -> id < length dims) -> Forall sensible_call calls -> completes calls ->
  let h := nq + 1 - m in let w := n + 1 - m in let b := buffer_used query (Z.of_nat m) buffer in let D := matrix_of k m dims series query in
  exists t cns, delivers query m n nq buffer calls t /\
    kprogram e k tc_step (Z.of_nat m) series query buffer (map Z.of_nat dims) (map (fun id => ([id], fun _ q s => Ok (tc_init thr (Z.to_nat q) (Z.to_nat s)))) ids) calls = Ok cns /\
    Forall2 (fun id s => forall i x j, nth_error thr i = Some x -> x <> PInf -> j < w ->
      let close r := outside b h j r /\ fleb (D id r j) x = true in
      exists c, mget (tc_counts s) i j = Ok c /\ (forall c', how_many close c' -> c' <= c) /\
        (how_many close c <-> forall r, close r -> weight (is_self query) t r j = 1)) ids cns.
Proof.
  intros e k m n nq series query buffer dims HE HW ids calls thr Hids Hcalls Hcs h w b D. destruct (@C102_counters e k m n nq series query buffer dims HE HW ids calls thr Hids Hcalls) as (t & cns & Ht & E & G).
  exists t, cns. split; [exact Ht|]. split; [exact E|]. fold h w b D in G. clear E. clear Hids. induction G as [|id s ids cns G _ IH]; constructor; [clear IH|exact IH]. intros i x j Hi Hx Hj close. eexists. split; [exact (G i x j Hi Hj)|]. clear G.
  set (p := fun r => fleb (masked b (D id) r j) x). assert (Hp : forall r, r < h /\ p r = true <-> close r).
  { intro r. unfold p, close, outside, masked. destruct (Z.leb_spec (Z.abs (Z.of_nat r - Z.of_nat j)) b) as [Hle|Hlt]; [|tauto]. split; [|lia]. intros [_ H]. destruct x; try discriminate H; contradiction. }
  assert (Hw : forall r, r < h -> p r = true -> 0 < weight (is_self query) t r j).
  { intros r Hr Hpr. destruct (proj1 (Hp r) (conj Hr Hpr)) as [[_ Ho] _]. apply weight_delivered. refine (proj2 (_ : SEnd.given (is_self query) b t r j)). apply (complete_cell HW Ht (completes_complete HW Ht Hcs) Hr Hj). unfold trivial. unfold b in Ho. lia. }
  destruct (@how_many_le h (fun r => r < h /\ p r = true)) as (c0 & H0); [intros r H; apply H| |].
  { intro r. destruct (lt_dec r h); [|right; tauto]. destruct (p r); [left; auto|right; intros [_ H]; discriminate]. }
  destruct (sum_of_weights p (fun r => weight (is_self query) t r j) Hw H0) as [G1 G2]. unfold p in G1, G2. split.
  - intros c' Hc'. eapply how_many_ext in Hc'; [|intro r; symmetry; apply Hp]. rewrite (how_many_unique Hc' H0). exact G1.
  - split.
    + intros H r Hr. eapply how_many_ext in H; [|intro r0; symmetry; apply Hp]. apply Hp in Hr. apply (proj1 G2); [exact (how_many_unique H H0)|apply Hr..].
    + intro H. rewrite (proj2 G2); [|intros r Hr Hpr; apply H, Hp; split; assumption]. eapply how_many_ext; [exact Hp|exact H0].
Qed.
Print Assumptions C102_right_iff.

(** Columns, then diagonals 1 and 2 of [4; 5; 3; 5; 4]: the cells on these diagonals are counted twice.  Thresholds 0, 1 and +inf; the last
    also counts the trivial match of each column. *)
Local Notation zs := (map (@Fin Z)).
Definition twice_counts (order : list Z -> list Z) (calls : list acall) :=
  bind (program (eu_calc_column (fun _ => NaN)) (@eu_calc_diagonal Z NumZ) (fun m s q => eu_prepare (fun _ => NaN) 2 (Z.to_nat m) s q) tc_step quick order 1 [zs [4; 5; 3; 5; 4]%Z] None (Some 0)%Z [0]%Z
    [([0], fun _ q s => Ok (tc_init [Fin 0; Fin 1; PInf]%Z (Z.to_nat q) (Z.to_nat s)))] calls) (fun l => Ok (map (@tc_counts Z) l)).
Example C102_example : twice_counts (fun l => l) [ACols never None (RFloat (Fin 1%Q)); ADiags never (RFloat (Fin (1#2)%Q))] =
  Ok [map (fun x => map (fun j => list_sum (map (fun r => if fleb (if r =? j then PInf else Fin (Z.abs (nth r [4; 5; 3; 5; 4] 0 - nth j [4; 5; 3; 5; 4] 0))%Z) x
    then weight true [PCols 0 5; PDiags [1; 2]%Z] r j else 0) (seq 0 5))) (seq 0 5)) [Fin 0; Fin 1; PInf]%Z].
Proof. vm_compute. reflexivity. Qed.
Example C102_example_counts : twice_counts (fun l => l) [ACols never None (RFloat (Fin 1%Q)); ADiags never (RFloat (Fin (1#2)%Q))] = Ok [[[1; 2; 0; 2; 1]; [6; 5; 4; 5; 6]; [7; 8; 9; 8; 7]]].
Proof. vm_compute. reflexivity. Qed.
(** Diagonals, then columns: every cell is counted once. *)
Example C102_columns_last : twice_counts (fun l => l) [ADiags never (RFloat (Fin (1#2)%Q)); ACols never None (RFloat (Fin 1%Q))] = Ok [[[1; 1; 0; 1; 1]; [4; 3; 2; 3; 4]; [5; 5; 5; 5; 5]]].
Proof. vm_compute. reflexivity. Qed.

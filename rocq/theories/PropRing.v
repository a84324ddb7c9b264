(** * Properties C01-C03: RingBuffer *)
From Verif Require Import Np NpFacts MRing SRing PRing.
From Coq Require Import QArith Qround.
Open Scope nat_scope.

(** C01. After any sequence of pushes and item/slice writes the view is the last [n] points of the
    stream in which every write has been applied to the point it targeted ([stream_run], SRing.v). *)
Theorem C01_window_is_last_n : forall (T : Type) mem (data : option (list T)) shape n sf os,
  (1 <= sf)%Q -> (sf <= 2)%Q -> 0 < n ->
  match shape with Some k => k = n | None => exists d, data = Some d /\ length d = n end ->
  exists b0 b s,
    rb_new mem data shape true sf = Ok b0 /\
    foldM (@rb_step T) os b0 = Ok b /\
    stream_run n (match data with Some d => d | None => [] end) os s /\
    forall s', stream_run n (match data with Some d => d | None => [] end) os s' -> rb_view b = lastn n s'.
Proof. exact C01_lemma. Qed.
Print Assumptions C01_window_is_last_n.

Example C01_case :
  (do b <- rb_new (fun i => Z.of_nat i + 100)%Z (Some [1; 2]%Z) (Some 3) true (3 # 2)%Q;
   do b <- foldM (@rb_step Z)
     [OpPush [3; 4]%Z; OpSetItem (-1) 9%Z; OpPush []; OpPush [5]%Z; OpSetItem 7 0%Z; OpPush [6]%Z;
      OpSetSlice (-2) 5 [7; 8]%Z; OpPush [1]%Z] b;
   Ok (rb_view b)) = Ok [7; 8; 1]%Z.
Proof. vm_compute. reflexivity. Qed.

(** The same for every scaling factor >= 1 and every history that raised no exception (see C03); the
    memory block keeps its size. *)
Theorem C01_window_any_factor : forall (T : Type) mem (data : option (list T)) shape n sf os b0 b,
  (1 <= sf)%Q -> 0 < n ->
  match shape with Some k => k = n | None => exists d, data = Some d /\ length d = n end ->
  match data with Some d => length d <= n | None => True end ->
  rb_new mem data shape true sf = Ok b0 ->
  foldM (@rb_step T) os b0 = Ok b ->
  Z.of_nat (length (rb_buf b)) = Qceiling (sf * inject_Z (Z.of_nat n)) /\
  exists s, stream_run n (match data with Some d => d | None => [] end) os s /\
    rb_view b = lastn n s.
Proof. exact C01_any_lemma. Qed.
Print Assumptions C01_window_any_factor.

(** C02. [push] returns exactly the number of points that left the window. *)
Theorem C02_push_returns_dropped : forall (T : Type) mem (data : option (list T)) shape n sf os d b0 b b' r,
  (1 <= sf)%Q -> 0 < n ->
  match shape with Some k => k = n | None => exists d, data = Some d /\ length d = n end ->
  match data with Some d => length d <= n | None => True end \/ (sf <= 2)%Q ->
  rb_new mem data shape true sf = Ok b0 ->
  foldM (@rb_step T) os b0 = Ok b ->
  rb_push b d = Ok (b', r) ->
  r + length (rb_view b') = length (rb_view b) + length d /\
  (r = 0 <-> rb_view b' = rb_view b ++ d).
Proof. exact C02_lemma. Qed.
Print Assumptions C02_push_returns_dropped.

Example C02_case :
  (do b <- rb_new (fun _ => 0%Z) (Some [1; 2]%Z) (Some 3) true 2%Q;
   do r <- rb_push b [3; 4; 5; 6; 7]%Z; Ok (rb_view (fst r), snd r)) = Ok ([5; 6; 7]%Z, 4).
Proof. vm_compute. reflexivity. Qed.

(** C03. Full statement: every push succeeds for every scaling factor >= 1.  False for factors above 2
    (next theorem); proved when the factor is at most 2 or no chunk is longer than the window. *)
Theorem C03_push_total_partial : forall (T : Type) mem n sf os,
  (1 <= sf)%Q -> 0 < n ->
  (forall d, In (OpPush d) os -> length d <= n \/ (sf <= 2)%Q) ->
  exists b0 b,
    rb_new mem (@None (list T)) (Some n) true sf = Ok b0 /\
    foldM (@rb_step T) os b0 = Ok b /\
    Z.of_nat (length (rb_buf b)) = Qceiling (sf * inject_Z (Z.of_nat n)).
Proof. exact C03_partial_lemma. Qed.
Print Assumptions C03_push_total_partial.

Theorem C03_push_total_refuted : exists (sf : Q) (b0 : rb Z) (d : list Z),
  (1 <= sf)%Q /\ rb_new (fun _ => 0%Z) (Some [1; 2]%Z) None true sf = Ok b0 /\
  rb_push b0 d = Err ValueError.
Proof.
  exists 3%Q, (mkRb [1; 2; 0; 0; 0; 0]%Z 0 2 2 0 2), [3; 4; 5]%Z.
  split; [discriminate|]. split; vm_compute; reflexivity.
Qed.
Print Assumptions C03_push_total_refuted.

(** Exactly which pushes are rejected: those that leave more than a window of points after filling the
    window, while these points still fit behind the window in memory. *)
Theorem C03_push_rejected_iff : forall (T : Type) mem n sf os d (b0 b : rb T),
  (1 <= sf)%Q -> 0 < n ->
  rb_new mem None (Some n) true sf = Ok b0 ->
  foldM (@rb_step T) os b0 = Ok b ->
  let left_over := length (rb_view b) + length d - n in
  (rb_push b d = Err ValueError <->
   n < left_over /\ rb_start b + n + left_over <= length (rb_buf b)) /\
  (is_ok (rb_push b d) = false -> rb_push b d = Err ValueError).
Proof. exact C03_iff_lemma. Qed.
Print Assumptions C03_push_rejected_iff.

Example C03_case :
  (do b <- rb_new (fun _ => 0%Z) None (Some 2) true 3%Q;
   do b <- foldM (@rb_step Z) [OpPush [1; 2]%Z; OpPush [3; 4]%Z; OpPush [5; 6; 7]%Z] b;
   Ok (rb_view b)) = Ok [6; 7]%Z.
Proof. vm_compute. reflexivity. Qed.

(** The constructor: which arguments are rejected with RuntimeError, and that every other failure is a ValueError. *)
Lemma set_slice_err {T} (l : list T) lo hi v e : set_slice l lo hi v = Err e -> e = ValueError.
Proof. unfold set_slice. destruct (_ =? _); [discriminate|]. destruct v as [|x [|y v]]; congruence. Qed.
Lemma rb_push_full_err {T} (b : rb T) d e : rb_push_full b d = Err e -> e = ValueError.
Proof.
  unfold rb_push_full. destruct (_ <=? _); [|destruct (_ <? _)].
  - destruct (set_slice _ _ _ _) eqn:E; cbn [bind]; [discriminate|]. intros [= <-]. eapply set_slice_err, E.
  - destruct (set_slice _ _ _ _) as [l|] eqn:E; cbn [bind]; [|intros [= <-]; eapply set_slice_err, E]. destruct (set_slice l _ _ _) eqn:E'; cbn [bind]; [discriminate|]. intros [= <-]. eapply set_slice_err, E'.
  - destruct (set_slice _ _ _ _) eqn:E; cbn [bind]; [discriminate|]. intros [= <-]. eapply set_slice_err, E.
Qed.
Lemma rb_push_err {T} (b : rb T) d e : rb_push b d = Err e -> e = ValueError.
Proof.
  unfold rb_push. destruct (_ =? 0); [discriminate|]. destruct (_ <? _); [|apply rb_push_full_err]. destruct (set_slice _ _ _ _) eqn:E; cbn [bind]; [|intros [= <-]; eapply set_slice_err, E].
  destruct (_ =? _); [discriminate|apply rb_push_full_err].
Qed.
Theorem C03_constructor_rejects : forall (T : Type) mem (data : option (list T)) shape dtype sf,
  (rb_new mem data shape dtype sf = Err RuntimeError <-> data = None /\ (shape = None \/ dtype = false)) /\
  (forall e, rb_new mem data shape dtype sf = Err e -> e = RuntimeError \/ e = ValueError).
Proof.
  assert (A : forall (T : Type) (mem : nat -> T) n sf e, rb_alloc mem n sf = Err e -> e = ValueError) by (intros T mem n sf e; unfold rb_alloc; destruct (_ <? 0)%Z; congruence).
  intros T mem data shape dtype sf. unfold rb_new. destruct data as [d|].
  - assert (K : forall e, (do b <- rb_alloc mem match shape with Some n => n | None => length d end sf; do r <- rb_push b d; Ok (fst r)) = Err e -> e = ValueError).
    { intro e. destruct (rb_alloc _ _ _) eqn:E; cbn [bind]; [|intros [= <-]; eapply A, E]. destruct (rb_push _ _) eqn:E'; cbn [bind]; [discriminate|]. intros [= <-]. eapply rb_push_err, E'. }
    split; [split; [intro E; apply K in E; discriminate|intros [E _]; discriminate]|]. intros e E. right. eapply K, E.
  - destruct shape as [n|]; [destruct dtype|].
    + split; [split; [intro E; apply A in E; discriminate|intros [_ [E|E]]; discriminate]|]. intros e E. right. eapply A, E.
    + split; [split; auto|]. intros e [= <-]. auto.
    + split; [split; auto|]. intros e [= <-]. auto.
Qed.
Print Assumptions C03_constructor_rejects.
Example C03_constructor_case : rb_new (fun _ => 0%Z) None (Some 3) false 2 = Err RuntimeError /\ rb_new (fun _ => 0%Z) None (Some 3) true (-1) = Err ValueError /\ is_ok (rb_new (fun _ => 0%Z) (Some [1; 2]%Z) None false 2) = true.
Proof. repeat split. Qed.

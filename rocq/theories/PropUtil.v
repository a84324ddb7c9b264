(** * Properties C04-C08: util.py *)
From Verif Require Import Np NpFacts Mat MUtil SUtil PUtil Inst.
From Coq Require Import Sorted.

(** C04. [diag_indices] enumerates exactly the cells of a diagonal, each once, top-left to bottom-right,
    and [diag_length] is their number. *)
Theorem C04_diag_indices : forall h w d, (0 <= h -> 0 <= w ->
  let rc := diag_indices h w d in
  let cells := combine (fst rc) (snd rc) in
  0 <= diag_length h w d /\
  Z.of_nat (length (fst rc)) = diag_length h w d /\
  Z.of_nat (length (snd rc)) = diag_length h w d /\
  NoDup cells /\
  (forall r c, In (r, c) cells <-> 0 <= r < h /\ 0 <= c < w /\ c - r = d) /\
  StronglySorted (fun p q => fst p < fst q /\ snd p < snd q) cells)%Z.
Proof. exact diag_indices_cells. Qed.
Print Assumptions C04_diag_indices.

Example C04_case : diag_indices 5 3 (-1) = ([1; 2; 3], [0; 1; 2])%Z /\ diag_length 3 5 3 = 2%Z.
Proof. vm_compute. auto. Qed.

(** C05. The same for cuts (anti-diagonals), bottom-left to top-right. *)
Theorem C05_cut_indices : forall h w cut, (1 <= h -> 1 <= w ->
  let rc := cut_indices h w cut in
  let cells := combine (fst rc) (snd rc) in
  length (fst rc) = length (snd rc) /\
  NoDup cells /\
  (forall r c, In (r, c) cells <-> 0 <= r < h /\ 0 <= c < w /\ r + c = cut) /\
  StronglySorted (fun p q => fst q < fst p /\ snd p < snd q) cells)%Z.
Proof. exact cut_indices_cells. Qed.
Print Assumptions C05_cut_indices.

Example C05_case : cut_indices 4 3 4 = ([3; 2], [1; 2])%Z.
Proof. vm_compute. auto. Qed.

(** C06. Every entry of [shortest_path_distances] is the optimal path cost ([optimal], SUtil.v), for all
    costs that are neither NaN nor minus infinity, whatever the uninitialised memory contains. *)
Theorem C06_distances_optimal : forall (A : Type) (NA : NumOps A) (OA : OrdLaws A) (MA : AddMono A)
  (cost : mat (num A)) h w garbage,
  is_mat h w cost -> 0 < h -> 0 < w ->
  (forall p v, entry cost p v -> v <> NaN /\ v <> NInf) ->
  exists dist, shortest_path_distances garbage cost = Ok dist /\ is_mat h w dist /\
    forall i j, i < h -> j < w -> exists c, entry dist (i, j) c /\ optimal cost (i, j) c.
Proof. exact C06_lemma. Qed.
Print Assumptions C06_distances_optimal.

#[export] Instance AddMonoZ : AddMono Z.
Proof. constructor; simpl; intros a b c H. apply Z.ltb_ge in H. apply Z.ltb_ge. lia. Qed.

Example C06_case : shortest_path_distances (fun _ _ => NaN)
  [[Fz 1; Fz 2; PInf]; [Fz 4; Fz 9; Fz 1]; [Fz 0; Fz 1; Fz 7]] =
  Ok [[Fz 1; Fz 3; PInf]; [Fz 5; Fz 10; Fz 4]; [Fz 5; Fz 6; Fz 11]].
Proof. vm_compute. reflexivity. Qed.

(** C07. For finite costs [shortest_path] terminates (within rows + columns iterations) with a monotone path
    from (0,0) to the last cell whose cost is minimal. *)
Theorem C07_path_optimal : forall (A : Type) (NA : NumOps A) (OA : OrdLaws A) (MA : AddMono A)
  (cost : mat (num A)) h w garbage fuel,
  is_mat h w cost -> 0 < h -> 0 < w ->
  (forall p v, entry cost p v -> exists a, v = Fin a) ->
  h + w <= fuel ->
  exists l c, shortest_path fuel garbage cost =
      Ok (map (fun p => (Z.of_nat (fst p), Z.of_nat (snd p))) l) /\
    mono_path cost l (h - 1, w - 1) c /\
    (forall l' c', mono_path cost l' (h - 1, w - 1) c' -> fleb c c' = true).
Proof. exact C07_lemma. Qed.
Print Assumptions C07_path_optimal.

Example C07_case : shortest_path 6 (fun _ _ => NaN)
  [[Fz 1; Fz 2; Fz 8]; [Fz 4; Fz 9; Fz 1]; [Fz 0; Fz 1; Fz 7]] = Ok [(0, 0); (0, 1); (1, 2); (2, 2)]%Z.
Proof. vm_compute. reflexivity. Qed.

(** With infinite costs the full statement fails: the step variable is never bound. *)
Theorem C07_infinite_cost_refuted : exists cost : mat (num Z),
  is_mat 1 2 cost /\ (forall p v, entry cost p v -> v <> NaN /\ v <> NInf) /\
  forall fuel, shortest_path (S fuel) (fun _ _ => NaN) cost = Err UnboundLocalError.
Proof.
  exists [[PInf; Fz 1]]. split; [|split].
  - split; [reflexivity|]. intros r [<-|[]]. reflexivity.
  - intros [[|i] j] v (r & Er & Ev); simpl in *; [|destruct i; discriminate].
    inversion Er; subst. destruct j as [|[|j]]; simpl in Ev; try (destruct j; discriminate);
      inversion Ev; subst; split; discriminate.
  - intro fuel. reflexivity.
Qed.
Print Assumptions C07_infinite_cost_refuted.

(** C08. A returned view has shape [o ++ shape] with [o = (n - s) / t + 1], every one of its elements is the
    element [i*step + j] of [x] and lies inside [x], and one more window would not fit. *)
Theorem C08_window_view : forall x shape step v,
  length (nd_strides x) = length (nd_shape x) ->
  sliding_window_view x shape step = Ok v ->
  exists o, nd_shape v = o ++ shape /\ length o = length (nd_shape x) /\
    (forall k n s t ok, nth_error (nd_shape x) k = Some n -> nth_error shape k = Some s ->
       nth_error (steps_of x step) k = Some t -> nth_error o k = Some ok ->
       (ok = (n - s) / t + 1 /\ (ok - 1) * t + s <= n < ok * t + s)%Z) /\
    (forall i j, in_shape i o -> in_shape j shape ->
       let src := zip_with Z.add (zip_with Z.mul i (steps_of x step)) j in
       in_shape src (nd_shape x) /\ nd_addr v (i ++ j) = nd_addr x src).
Proof. exact C08_lemma. Qed.
Print Assumptions C08_window_view.

(** The same with addresses written out: where NumPy finds the element at an index. *)
Definition address (base : Z) (strides idx : list Z) : Z := (base + fold_right Z.add 0 (map (fun p => fst p * snd p) (combine idx strides)))%Z.

Theorem C08_addresses : forall x shape step v i j o, length (nd_strides x) = length (nd_shape x) ->
  sliding_window_view x shape step = Ok v -> nd_shape v = o ++ shape -> in_shape i o -> in_shape j shape ->
  address (nd_base v) (nd_strides v) (i ++ j) = address (nd_base x) (nd_strides x) (zip_with Z.add (zip_with Z.mul i (steps_of x step)) j) /\
  forall a idx, nd_addr a idx = address (nd_base a) (nd_strides a) idx.
Proof.
  intros x shape step v i j o L E Ev Hi Hj.
  assert (A : forall a idx, nd_addr a idx = address (nd_base a) (nd_strides a) idx).
  { intros a idx. unfold nd_addr, address. f_equal. generalize (nd_strides a). induction idx as [|k idx IH]; intros [|t st]; cbn; auto. f_equal. apply IH. }
  split; [|exact A]. destruct (@C08_window_view x shape step v L E) as (o' & Eo & _ & _ & K). assert (o' = o) as -> by (rewrite Ev in Eo; symmetry; eapply app_inv_tail; exact Eo).
  rewrite <- !A. apply K; assumption.
Qed.
Print Assumptions C08_addresses.

(** Accepted exactly when the dimensions agree, windows and steps are positive and the window fits; every
    other argument is rejected with ValueError. *)
Theorem C08_accepts_iff : forall x shape step,
  (is_ok (sliding_window_view x shape step) = true <->
   length shape = length (nd_shape x) /\ Forall (fun s => 0 < s)%Z shape /\
   length (steps_of x step) = length (nd_shape x) /\ Forall (fun s => 0 < s)%Z (steps_of x step) /\
   Forall2 (fun s n => s <= n)%Z shape (nd_shape x)) /\
  (is_ok (sliding_window_view x shape step) = false -> sliding_window_view x shape step = Err ValueError).
Proof. exact (fun x shape step => conj (proj1 (swv_ok_iff x shape step)) (proj1 (proj2 (swv_ok_iff x shape step)))). Qed.
Print Assumptions C08_accepts_iff.

Example C08_case : sliding_window_view (mkNd 100 [4; 5] [-7; 1])%Z [2; 3]%Z (Some [1; 2]%Z) =
  Ok (mkNd 100 [3; 2; 2; 3] [-7; 2; -7; 1])%Z.
Proof. vm_compute. reflexivity. Qed.

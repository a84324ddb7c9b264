(** * PDiagonal: sums over the windows of a diagonal, from cumulative sums *)
From Coq Require Import Reals Lra.
From Verif Require Import Np NpFacts MUtil MArith SReal SCalc PArith.
Set Implicit Arguments.
Open Scope nat_scope.

Lemma cumsum_from_fin a l : cumsum_from (Fin a) (fin l) = fin (map (fun k => (a + rsum (firstn k l))%R) (seq 1 (length l))).
Proof.
  revert a. induction l as [|x l IH]; intro a; [reflexivity|]. cbn [map cumsum_from length seq fadd nadd NumR].
  rewrite IH. cbn [firstn rsum fold_right]. f_equal.
  - f_equal. unfold rsum. cbn [fold_right]. lra.
  - rewrite <- (seq_shift _ 1), !map_map. apply map_ext. intro k. f_equal. cbn [firstn rsum fold_right]. unfold rsum. cbn [fold_right]. lra.
Qed.
Lemma cumsum_fin l : fzero :: cumsum (fin l) = fin (map (fun k => rsum (firstn k l)) (seq 0 (length l + 1))).
Proof.
  rewrite Nat.add_1_r. cbn [seq map]. f_equal. destruct l as [|x l]; [reflexivity|]. cbn [map cumsum length]. rewrite cumsum_from_fin.
  cbn [seq map firstn]. f_equal.
  - f_equal. unfold rsum. cbn [fold_right]. lra.
  - rewrite <- (seq_shift _ 1), !map_map. reflexivity.
Qed.

Lemma rsum_sub m l j : j + m <= length l -> (rsum (firstn (j + m) l) - rsum (firstn j l))%R = rsum (sub m l j).
Proof.
  intro H. unfold sub. rewrite <- (firstn_skipn j (firstn (j + m) l)) at 1. rewrite rsum_app, firstn_firstn, Nat.min_l by lia.
  rewrite skipn_firstn_comm. replace (j + m - j) with m by lia. lra.
Qed.

(** cumsum[m:] - cumsum[:n-m] *)
Lemma window_sums (D : list R) m : 0 < m -> m <= length D ->
  bop fsub (slice (fzero :: cumsum (fin D)) (Z.of_nat m) (Z.of_nat (length (fzero :: cumsum (fin D)))))
           (slice (fzero :: cumsum (fin D)) 0 (Z.of_nat (length (fzero :: cumsum (fin D))) - Z.of_nat m)) =
  Ok (fin (map (fun j => rsum (sub m D j)) (seq 0 (length D + 1 - m)))).
Proof.
  intros Hm HD. rewrite cumsum_fin, !map_length, seq_length.
  replace (Z.of_nat (length D + 1) - Z.of_nat m)%Z with (Z.of_nat (length D + 1 - m)) by lia.
  change 0%Z with (Z.of_nat 0). rewrite !slice_nat.
  set (cs := map (fun k => rsum (firstn k D)) (seq 0 (length D + 1))).
  assert (Ln : length cs = length D + 1) by (unfold cs; rewrite map_length, seq_length; reflexivity).
  assert (Ecs : forall i, nth_error cs i = if i <? length D + 1 then Some (rsum (firstn i D)) else None).
  { intro i. unfold cs. rewrite nth_error_map, nth_error_seq. destruct (i <? length D + 1); reflexivity. }
  rewrite bop_eq by (unfold lslice; rewrite !firstn_length, !skipn_length, !map_length, Ln; lia).
  f_equal. apply nth_error_ext. intro i. rewrite nth_error_zip_with, !nth_error_lslice, !nth_error_map, !Ecs, !nth_error_seq.
  cbn [Nat.add]. rewrite Nat.sub_0_r.
  destruct (Nat.ltb_spec i (length D + 1 - m)); [|reflexivity].
  destruct (Nat.ltb_spec (m + i) (length D + 1)); [|lia]. destruct (Nat.ltb_spec i (length D + 1)); [|lia].
  cbn [option_map fsub nsub NumR]. do 2 f_equal. rewrite (Nat.add_comm m i). apply rsum_sub. lia.
Qed.

(** The parts of query and series below a diagonal, aligned *)
Lemma sub_zip {S T U} (f : S -> T -> U) m a b j : sub m (zip_with f a b) j = zip_with f (sub m a j) (sub m b j).
Proof.
  apply nth_error_ext. intro i. rewrite nth_error_sub, !nth_error_zip_with, !nth_error_sub. destruct (i <? m); reflexivity.
Qed.
Lemma sub_sub {T} m n (l : list T) a j : j + m <= n -> sub m (sub n l a) j = sub m l (a + j).
Proof.
  intro H. apply nth_error_ext. intro i. rewrite !nth_error_sub. destruct (Nat.ltb_spec i m); [|reflexivity].
  destruct (Nat.ltb_spec (j + i) n); [|lia]. f_equal. lia.
Qed.

Lemma diag_align (term : num R -> num R -> num R) (f : R -> R -> R) m (S Q : list R) d :
  (forall a b, term (Fin a) (Fin b) = Fin (f a b)) -> 0 < m ->
  (exists i j, i + m <= length Q /\ j + m <= length S /\ (Z.of_nat j - Z.of_nat i)%Z = d) ->
  let dl := diag_length (Z.of_nat (length (fin Q))) (Z.of_nat (length (fin S))) d in
  let n := Z.to_nat dl in
  let a := Z.to_nat (Z.max 0 (- d)) in
  let b := Z.to_nat (Z.max 0 d) in
  dl = Z.of_nat n /\
  (if (0 <=? d)%Z then bop term (slice (fin Q) 0 dl) (slice (fin S) d (d + dl))
   else bop term (slice (fin Q) (- d) (- d + dl)) (slice (fin S) 0 dl)) = Ok (fin (zip_with f (sub n Q a) (sub n S b))) /\
  m <= n /\ a + n <= length Q /\ b + n <= length S /\ length (zip_with f (sub n Q a) (sub n S b)) = n /\
  Z.of_nat (n + 1 - m) = dlen (length Q + 1 - m) (length S + 1 - m) d.
Proof.
  intros Ht Hm (i & j & Hi & Hj & Hd) dl n a b.
  assert (L : (dl = Z.min (Z.of_nat (length Q) - Z.max 0 (- d)) (Z.of_nat (length S) - Z.max 0 d))%Z).
  { unfold dl, diag_length. rewrite !map_length. destruct (Z.leb_spec 0 d); lia. }
  clearbody dl. assert (En : dl = Z.of_nat n) by (unfold n; lia).
  assert (Ha : a + n <= length Q) by (unfold a; lia). assert (Hb : b + n <= length S) by (unfold b; lia).
  assert (Ls : length (sub n Q a) = length (sub n S b)) by (rewrite !length_sub; lia).
  assert (Lz : length (zip_with f (sub n Q a) (sub n S b)) = n) by (rewrite length_zip_with, !length_sub; lia).
  split; [exact En|]. split; [|unfold dlen; split; [lia|]; repeat split; auto; lia].
  assert (E : bop term (fin (sub n Q a)) (fin (sub n S b)) = Ok (fin (zip_with f (sub n Q a) (sub n S b)))).
  { rewrite bop_eq by (rewrite !map_length; exact Ls). rewrite zip_with_map, map_zip_with. f_equal. apply zip_with_ext. exact Ht. }
  rewrite <- E, En. change 0%Z with (Z.of_nat 0) at 2. destruct (Z.leb_spec 0 d).
  - replace d with (Z.of_nat b) by lia. rewrite <- Nat2Z.inj_add, !slice_nat, lslice_sub.
    replace (lslice (fin Q) 0 n) with (sub n (fin Q) a) by (unfold lslice, sub; replace a with 0 by lia; rewrite Nat.sub_0_r; reflexivity).
    rewrite !sub_map. reflexivity.
  - replace (- d)%Z with (Z.of_nat a) by lia. rewrite <- Nat2Z.inj_add. change 0%Z with (Z.of_nat 0). rewrite !slice_nat, lslice_sub.
    replace (lslice (fin S) 0 n) with (sub n (fin S) b) by (unfold lslice, sub; replace b with 0 by lia; rewrite Nat.sub_0_r; reflexivity).
    rewrite !sub_map. reflexivity.
Qed.

(** The sums of the windows of a diagonal, cell by cell *)
Lemma diag_sums (f : R -> R -> R) m n a b (Q S : list R) : 0 < m -> m <= n -> a + n <= length Q -> b + n <= length S ->
  map (fun j => rsum (sub m (zip_with f (sub n Q a) (sub n S b)) j)) (seq 0 (n + 1 - m)) =
  map (fun j => psum f (sub m Q (a + j)) (sub m S (b + j))) (seq 0 (n + 1 - m)).
Proof.
  intros. apply map_ext_in. intros j Hj%in_seq. rewrite sub_zip, !sub_sub by lia. reflexivity.
Qed.

(** * Property C45: DistanceMatrix *)
From Verif Require Import Np NpFacts Mat MUtil MProfile SLog MDist SDist PDist Inst.

(** C45. After every history of diagonals, columns and shifts, entry (i, j) is the most recently delivered value
    of the cell now at (i, j), NaN if that cell was never delivered. *)
Theorem C45_latest : forall (A : Type) h w (es : list (event (num A))), Forall (fits h w) es ->
  exists m0 m, dm_init 1 h w = Ok m0 /\ dm_run m0 es = Ok m /\ is_mat h w m /\
    forall i j, i < h -> j < w -> exists v, mget m i j = Ok v /\
      is_latest (log es) (qshift es + Z.of_nat i) (sshift es + Z.of_nat j) NaN v.
Proof. exact (@C45_lemma). Qed.
Print Assumptions C45_latest.

(** ... which determines the value. *)
Theorem C45_unique : forall (T : Type) (dflt : T) L r c v w,
  is_latest L r c dflt v -> is_latest L r c dflt w -> v = w.
Proof. exact (@is_latest_unique). Qed.
Print Assumptions C45_unique.

(** Once every cell of an unshifted matrix [D] was delivered, in any order, [D] itself is stored. *)
Theorem C45_complete : forall (A : Type) h w D (es : list (event (num A))),
  Forall (fits h w) es -> Forall no_shift es -> agrees D (log es) -> covers h w (log es) ->
  exists m0 m, dm_init 1 h w = Ok m0 /\ dm_run m0 es = Ok m /\ is_mat h w m /\
    forall i j, i < h -> j < w -> mget m i j = Ok (D (Z.of_nat i) (Z.of_nat j)).
Proof. exact (@C45_complete_lemma). Qed.
Print Assumptions C45_complete.

Example C45_case :
  (do m <- dm_init 1 2 3;
   dm_run m [EDiag 1 [[Fz 1; Fz 2]]; EDiag (-1) [[Fz 3]]; EShiftS 1; ECol 2 [[Fz 4; Fz 5]]; EShiftQ 1; EShiftQ 0])
  = Ok [[NaN; Fz 2; Fz 5]; [NaN; NaN; NaN]].
Proof. vm_compute. reflexivity. Qed.

Example C45_big_shift :
  (do m <- dm_init 1 2 2; dm_run m [ECol 0 [[Fz 1; Fz 2]]; EShiftS 5]) = Ok [[NaN; NaN]; [NaN; NaN]].
Proof. vm_compute. reflexivity. Qed.

(** C45. More values than the diagonal or column has cells: ValueError, except that a single value for a diagonal without cells changes nothing.  A column outside the matrix
    is an IndexError. *)
Theorem C45_too_long : forall (A : Type) h w (m : mat (num A)), 0 < h -> is_mat h w m ->
  (forall d vals rest, (Z.min (Z.of_nat h - Z.max 0 (- d)) (Z.of_nat w - Z.max 0 d) < Z.of_nat (length vals))%Z -> vals <> [] ->
    dm_step m (EDiag d (vals :: rest)) = if length vals =? 1 then Ok m else Err ValueError) /\
  (forall c vals rest, c < w -> h < length vals -> dm_step m (ECol c (vals :: rest)) = Err ValueError) /\
  (forall c vals rest, w <= c -> dm_step m (ECol c (vals :: rest)) = Err IndexError).
Proof.
  intros A h w m Hh M.
  assert (HC : forall c, (ncols m <=? c) = (w <=? c)) by (intro c; rewrite (ncols_is_mat M) by lia; reflexivity).
  assert (FS : forall (cells : list (Z * Z)) vals, length cells < length vals -> fancy_set m cells vals = if length vals =? 1 then Ok m else Err ValueError).
  { intros cells vals HL. unfold fancy_set. rewrite (proj2 (Nat.eqb_neq (length cells) (length vals))) by lia. destruct (Nat.eqb_spec (length vals) 1); [|reflexivity].
    destruct cells; [reflexivity|cbn in HL; lia]. }
  split; [|split].
  - intros d vals rest Hd Hv. cbn [dm_step]. unfold dm_diag. cbn [row0 bind]. apply FS.
    rewrite combine_length, !firstn_length. unfold diag_indices_of, diag_indices. rewrite (proj1 M), (ncols_is_mat M) by lia.
    assert (0 < length vals) by (destruct vals; [contradiction|cbn; lia]).
    assert (diag_length (Z.of_nat h) (Z.of_nat w) d < Z.of_nat (length vals))%Z by (unfold diag_length; destruct (Z.leb_spec 0 d); lia).
    assert (P : forall a b, length (pyrange a b) = Z.to_nat (b - a)) by (intros a b; unfold pyrange, arange; rewrite map_length, seq_length; reflexivity).
    destruct (0 <=? d)%Z; cbn [fst snd]; rewrite !P; lia.
  - intros c vals rest Hc Hv. cbn [dm_step]. unfold dm_col. cbn [row0 bind]. rewrite HC, (proj2 (Nat.leb_gt w c)) by lia. rewrite FS by (rewrite map_length, seq_length, (proj1 M); lia).
    rewrite (proj2 (Nat.eqb_neq (length vals) 1)) by lia. reflexivity.
  - intros c vals rest Hc. cbn [dm_step]. unfold dm_col. cbn [row0 bind]. rewrite HC, (proj2 (Nat.leb_le w c)) by lia. reflexivity.
Qed.
Print Assumptions C45_too_long.

Example C45_too_long_case :
  (do m <- dm_init 1 2 3; dm_run m [EDiag 0 [[Fz 1; Fz 2]]; EDiag 3 [[Fz 7]]; EDiag (-2) [[Fz 8]]]) = Ok [[Fz 1; NaN; NaN]; [NaN; Fz 2; NaN]] /\
  (do m <- dm_init 1 2 3; dm_run m [EDiag 3 [[Fz 7; Fz 8]]]) = Err ValueError /\ (do m <- dm_init 1 2 3; dm_run m [EDiag 2 [[Fz 7; Fz 8]]]) = Err ValueError.
Proof. repeat split. Qed.

(** * Properties C33-C38: MatrixProfileLR and ShiftingMatrixProfileLR *)
From Coq Require Import QArith.
From Verif Require Import Np NpFacts Mat Inst MRing SLog PLog SIndex MProfile PProfile PShift PIndex.
Open Scope nat_scope.

(** C33. Any diagonals in any order (also incomplete, repeated or inconsistent ones, NaN and inf
    included): the left (right) entry of column c is the smallest value delivered at a row <= c (> c),
    its index is the row of the first delivered smallest one, +inf/-1 if there is none. *)
Theorem C33_diagonals : forall A (NA : NumOps A) (OL : OrdLaws A) h w (es : list (event (num A))),
  Forall is_diag es -> Forall (fits h w) es ->
  exists s, mplr_run (mplr_init h w) es = Ok s /\
    length (mp_left s) = w /\ length (mp_right s) = w /\ length (mp_ileft s) = w /\ length (mp_iright s) = w /\
    forall c, c < w -> exists vl il vr ir,
      nth_error (mp_left s) c = Some vl /\ nth_error (mp_ileft s) c = Some il /\
      nth_error (mp_right s) c = Some vr /\ nth_error (mp_iright s) c = Some ir /\
      let a := Z.of_nat c in
      is_first_best (sel (is_left a) a (log es)) vl il /\
      is_first_best (sel (is_right a) a (log es)) vr ir.
Proof. intros A NA OL. exact C33_lemma. Qed.
Print Assumptions C33_diagonals.

(** The specification determines the entry. *)
Theorem C33_spec_unique : forall A (NA : NumOps A) (OL : OrdLaws A) cells (v : num A) i v' i',
  is_first_best cells v i -> is_first_best cells v' i' -> v = v' /\ i = i'.
Proof. intros A NA OL. exact first_best_unique. Qed.
Print Assumptions C33_spec_unique.

Example C33_case :
  (do s <- mplr_run (mplr_init 3 4)
      [EDiag 1 [[Fz 4; NaN; Fz 2]]; EDiag (-1) [[Fz 7; Fz 5]]; EDiag 0 [[Fz 1; Fz 4; PInf]];
       EDiag (-2) [[Fz 7]]; EDiag 3 [[Fz 9]]; EDiag 3 [[Fz 9]]];
   Ok (mp_left s, mp_ileft s, mp_right s, mp_iright s))
  = Ok ([Fz 1; Fz 4; PInf; Fz 2], [0; 0; -1; 2]%Z, [Fz 7; Fz 5; PInf; PInf], [1; 2; -1; -1]%Z).
Proof. vm_compute. reflexivity. Qed.

(** C34. One column, in any state. *)
Theorem C34_column : forall A (NA : NumOps A) (OL : OrdLaws A) w (s : @mplr A) c (vals : list (num A)) rest,
  length (mp_left s) = w -> length (mp_ileft s) = w -> length (mp_right s) = w -> length (mp_iright s) = w ->
  c < w -> vals <> [] -> no_nan vals ->
  exists s', mplr_col s c (vals :: rest) = Ok s' /\ mp_range s' = mp_range s /\
    length (mp_left s') = w /\ length (mp_ileft s') = w /\ length (mp_right s') = w /\ length (mp_iright s') = w /\
    (forall j, j <> c -> nth_error (mp_left s') j = nth_error (mp_left s) j /\
       nth_error (mp_ileft s') j = nth_error (mp_ileft s) j /\
       nth_error (mp_right s') j = nth_error (mp_right s) j /\
       nth_error (mp_iright s') j = nth_error (mp_iright s) j) /\
    (exists v i, nth_error (mp_left s') c = Some v /\ nth_error (mp_ileft s') c = Some (Z.of_nat i) /\
       is_lowest vals 0 (Nat.min (c + 1) (length vals)) v i) /\
    (if c + 2 <=? length vals then
       exists v i, nth_error (mp_right s') c = Some v /\ nth_error (mp_iright s') c = Some (Z.of_nat i) /\
         is_lowest vals (c + 1) (length vals) v i
     else nth_error (mp_right s') c = nth_error (mp_right s) c /\
          nth_error (mp_iright s') c = nth_error (mp_iright s) c).
Proof. intros A NA OL. exact mplr_col_ok. Qed.
Print Assumptions C34_column.

Example C34_case :
  (do s <- mplr_run (mplr_init 5 3) [ECol 1 [[Fz 3; Fz 2; Fz 6; Fz 4; Fz 4]]];
   Ok (mp_left s, mp_ileft s, mp_right s, mp_iright s))
  = Ok ([PInf; Fz 2; PInf], [-1; 1; -1]%Z, [PInf; Fz 4; PInf], [-1; 3; -1]%Z).
Proof. vm_compute. reflexivity. Qed.

(** C35. Any mix of diagonals and (complete, NaN-free) columns of one matrix [D]. *)
Theorem C35_merged : forall A (NA : NumOps A) (OL : OrdLaws A) h w D (es : list (event (num A))),
  Forall no_shift es -> Forall (fits h w) es -> Forall (full_cols h) es -> Forall cols_no_nan es ->
  agrees D (log es) ->
  exists s, mplr_run (mplr_init h w) es = Ok s /\
    length (mplr_mp s) = w /\ length (mplr_idx s) = w /\
    forall c, c < w -> exists vl il vr ir v i,
      nth_error (mp_left s) c = Some vl /\ nth_error (mp_ileft s) c = Some il /\
      nth_error (mp_right s) c = Some vr /\ nth_error (mp_iright s) c = Some ir /\
      nth_error (mplr_mp s) c = Some v /\ nth_error (mplr_idx s) c = Some i /\
      fleb v vl = true /\ fleb v vr = true /\ (v = vl /\ i = il \/ v = vr /\ i = ir) /\
      is_best (sel (is_left (Z.of_nat c)) (Z.of_nat c) (log es)) vl il /\
      is_best (sel (is_right (Z.of_nat c)) (Z.of_nat c) (log es)) vr ir /\
      is_best (sel all_rows (Z.of_nat c) (log es)) v i.
Proof. intros A NA OL. exact C35_lemma. Qed.
Print Assumptions C35_merged.

(** Once every cell was delivered the merged profile is the column minimum. *)
Theorem C35_column_minimum : forall A (NA : NumOps A) (OL : OrdLaws A) h w D (es : list (event (num A))),
  Forall no_shift es -> Forall (fits h w) es -> Forall (full_cols h) es -> Forall cols_no_nan es ->
  agrees D (log es) -> covers h w (log es) ->
  exists s, mplr_run (mplr_init h w) es = Ok s /\
    forall c, c < w -> exists v i, nth_error (mplr_mp s) c = Some v /\ nth_error (mplr_idx s) c = Some i /\
      (forall r, r < h -> fltb (D (Z.of_nat r) (Z.of_nat c)) v = false) /\
      (v = PInf \/ exists r, r < h /\ i = Z.of_nat r /\ v = D (Z.of_nat r) (Z.of_nat c)).
Proof. intros A NA OL. exact C35_complete_lemma. Qed.
Print Assumptions C35_column_minimum.

(** A mix that covers a 2 x 3 matrix: column 0, then diagonals (some cells twice). *)
Example C35_case :
  let es := [EDiag 0 [[Fz 3; Fz 1]]; ECol 0 [[Fz 3; Fz 2]]; EDiag 1 [[Fz 5; Fz 4]]; EDiag 2 [[Fz 0]]] in
  (do s <- mplr_run (mplr_init 2 3) es; Ok (mplr_mp s, mplr_idx s))
  = Ok ([Fz 2; Fz 1; Fz 0], [1; 1; 0]%Z) /\
  log es = [(0, 0, Fz 3); (1, 1, Fz 1); (0, 0, Fz 3); (1, 0, Fz 2); (0, 1, Fz 5); (1, 2, Fz 4); (0, 2, Fz 0)]%Z.
Proof. split; vm_compute; reflexivity. Qed.

(** C36, diagonals: an entry without match has index -1. *)
Theorem C36_no_match_partial : forall A (NA : NumOps A) (OL : OrdLaws A) h w (es : list (event (num A))),
  Forall is_diag es -> Forall (fits h w) es ->
  exists s, mplr_run (mplr_init h w) es = Ok s /\
    forall c, (nth_error (mp_left s) c = Some PInf -> nth_error (mp_ileft s) c = Some (-1)%Z) /\
              (nth_error (mp_right s) c = Some PInf -> nth_error (mp_iright s) c = Some (-1)%Z) /\
              (nth_error (mplr_mp s) c = Some PInf -> nth_error (mplr_idx s) c = Some (-1)%Z).
Proof. intros A NA OL. exact C36_diag_lemma. Qed.
Print Assumptions C36_no_match_partial.

(** C36, streaming consumer: for every history. *)
Theorem C36_no_match_streaming : forall A (NA : NumOps A) (OL : OrdLaws A) memn memz sf h w (es : list (event (num A))),
  (1 <= sf)%Q -> (sf <= 2)%Q -> 0 < w -> Forall (fits h w) es -> Forall cols_no_nan es ->
  exists s0 s, smp_init memn memz sf h w = Ok s0 /\ smp_run s0 es = Ok s /\
    forall c, (nth_error (rb_view (s_left s)) c = Some PInf -> nth_error (rb_view (s_ileft s)) c = Some (-1)%Z) /\
              (nth_error (rb_view (s_right s)) c = Some PInf -> nth_error (rb_view (s_iright s)) c = Some (-1)%Z) /\
              (nth_error (smp_mp s) c = Some PInf -> nth_error (smp_idx s) c = Some (-1)%Z).
Proof. intros A NA OL. exact C36_shift_lemma. Qed.
Print Assumptions C36_no_match_streaming.

(** C36 fails for columns of MatrixProfileLR: a column that is +inf above the main diagonal (as a
    trivial-match zone makes it) gets an index. *)
Theorem C36_column_index_refuted :
  exists (es : list (event (num Z))) s, Forall (fits 3 3) es /\ Forall cols_no_nan es /\
    mplr_run (mplr_init 3 3) es = Ok s /\
    nth_error (mp_left s) 1 = Some PInf /\ nth_error (mp_ileft s) 1 = Some 0%Z /\
    nth_error (mplr_mp s) 0 = Some PInf /\ nth_error (mplr_idx s) 0 = Some 1%Z.
Proof.
  exists [ECol 0 [[PInf; PInf; PInf]]; ECol 1 [[PInf; PInf; Fz 3]]]. eexists.
  split; [|split; [|split; [vm_compute; reflexivity|vm_compute; auto]]].
  - repeat constructor; try lia; eexists; eexists; (split; [reflexivity|]); simpl; lia.
  - repeat constructor; simpl; intros vals [<-|[]] x; simpl; intuition subst; reflexivity.
Qed.
Print Assumptions C36_column_index_refuted.

(** C36, any mix of diagonals and NaN-free columns: the index beside an infinite entry is -1 exactly when
    the column was not delivered as a column (for the right profile: with rows below the main diagonal),
    otherwise it is the first row of that side. *)
Theorem C36_exact : forall A (NA : NumOps A) (OL : OrdLaws A) h w (es : list (event (num A))),
  Forall no_shift es -> Forall (fits h w) es -> Forall cols_no_nan es ->
  exists s, mplr_run (mplr_init h w) es = Ok s /\
    length (mp_left s) = w /\ length (mp_right s) = w /\
    forall c,
      (nth_error (mp_left s) c = Some PInf ->
         (col_given c 1 es /\ nth_error (mp_ileft s) c = Some 0%Z) \/
         (~ col_given c 1 es /\ nth_error (mp_ileft s) c = Some (-1)%Z)) /\
      (nth_error (mp_right s) c = Some PInf ->
         (col_given c (c + 2) es /\ nth_error (mp_iright s) c = Some (Z.of_nat c + 1)%Z) \/
         (~ col_given c (c + 2) es /\ nth_error (mp_iright s) c = Some (-1)%Z)) /\
      (nth_error (mplr_mp s) c = Some PInf ->
         (col_given c (c + 2) es /\ nth_error (mplr_idx s) c = Some (Z.of_nat c + 1)%Z) \/
         (~ col_given c (c + 2) es /\ nth_error (mplr_idx s) c = Some (-1)%Z)).
Proof.
  intros A NA OL h w es Hn Hf Hnan.
  destruct (idx_run Hn Hf Hnan) as (s & E & _ & L1 & L2 & L3 & L4 & H). exists s. split; [exact E|].
  split; [exact L1|]. split; [exact L3|]. intro c. destruct (Nat.lt_ge_cases c w) as [Hc|Hc].
  - destruct (H c Hc) as (vl & il & vr & ir & H1 & H2 & H3 & H4).
    apply ent_inv in H1, H2. destruct H1 as [V1 I1], H2 as [V2 I2].
    assert (F : forall x y : num A, (if fltb x y then x else y) = PInf -> fltb x y = false /\ y = PInf).
    { intros x y X. destruct (fltb x y) eqn:Y; [|auto]. subst x. destruct y; discriminate Y. }
    split; [|split].
    + rewrite V1, I1. intros [= ->]. destruct (H3 eq_refl) as [[X ->]|[X ->]]; auto.
    + rewrite V2, I2. intros [= ->]. destruct (H4 eq_refl) as [[X ->]|[X ->]]; auto.
    + unfold mplr_mp, mplr_idx. rewrite (nth_merge _ _ _ V1 V2), (nth_merge_idx _ _ _ _ _ V1 V2 I1 I2).
      intros [= X]. destruct (F _ _ X) as [-> ->]. destruct (H4 eq_refl) as [[Y ->]|[Y ->]]; auto.
  - split; [|split]; intro X; apply nth_error_some_lt in X; try lia.
    unfold mplr_mp, merge_mp in X. rewrite length_zip_with in X. lia.
Qed.
Print Assumptions C36_exact.

(** Column 0 was delivered as a column of infinities, column 1 only by diagonals. *)
Example C36_exact_case :
  (do s <- mplr_run (mplr_init 3 3) [EDiag 0 [[PInf; PInf; Fz 4]]; ECol 0 [[PInf; PInf; PInf]]; EDiag (-1) [[PInf; PInf]]];
   Ok (mp_left s, mp_ileft s, mplr_mp s, mplr_idx s))
  = Ok ([PInf; PInf; Fz 4], [0; -1; 2]%Z, [PInf; PInf; Fz 4], [1; -1; 2]%Z).
Proof. vm_compute. reflexivity. Qed.

(** C37. More diagonals never increase an entry: [es] may be a prefix of [es'], or any part of the
    diagonals of a matrix while [es'] is all of them. *)
Theorem C37_monotone : forall A (NA : NumOps A) (OL : OrdLaws A) h w (es es' : list (event (num A))),
  Forall is_diag es -> Forall (fits h w) es -> Forall is_diag es' -> Forall (fits h w) es' ->
  (forall x, In x (log es) -> In x (log es')) ->
  exists s s', mplr_run (mplr_init h w) es = Ok s /\ mplr_run (mplr_init h w) es' = Ok s' /\
    forall c, c < w -> exists v v' vl vl' vr vr',
      nth_error (mplr_mp s) c = Some v /\ nth_error (mplr_mp s') c = Some v' /\ fleb v' v = true /\
      nth_error (mp_left s) c = Some vl /\ nth_error (mp_left s') c = Some vl' /\ fleb vl' vl = true /\
      nth_error (mp_right s) c = Some vr /\ nth_error (mp_right s') c = Some vr' /\ fleb vr' vr = true.
Proof. intros A NA OL. exact C37_lemma. Qed.
Print Assumptions C37_monotone.

Example C37_case :
  (do s <- mplr_run (mplr_init 2 2) [EDiag 0 [[Fz 3; Fz 4]]];
   do s' <- mplr_run (mplr_init 2 2) [EDiag 1 [[Fz 1]]; EDiag 0 [[Fz 3; Fz 4]]; EDiag (-1) [[Fz 7]]];
   Ok (mplr_mp s, mplr_mp s')) = Ok ([Fz 3; Fz 4], [Fz 3; Fz 1]).
Proof. vm_compute. reflexivity. Qed.

(** C38. Streaming consumer: every history of diagonals, columns, series and query shifts. *)
Theorem C38_streaming_history : forall A (NA : NumOps A) (OL : OrdLaws A) memn memz sf h w (es : list (event (num A))),
  (1 <= sf)%Q -> (sf <= 2)%Q -> 0 < w -> Forall (fits h w) es -> Forall cols_no_nan es ->
  exists s0 s, smp_init memn memz sf h w = Ok s0 /\ smp_run s0 es = Ok s /\
    s_qs s = qshift es /\ s_ss s = sshift es /\
    length (rb_view (s_left s)) = w /\ length (rb_view (s_right s)) = w /\
    length (rb_view (s_ileft s)) = w /\ length (rb_view (s_iright s)) = w /\
    forall c, c < w -> exists vl il vr ir,
      nth_error (rb_view (s_left s)) c = Some vl /\ nth_error (rb_view (s_ileft s)) c = Some il /\
      nth_error (rb_view (s_right s)) c = Some vr /\ nth_error (rb_view (s_iright s)) c = Some ir /\
      let a := (sshift es + Z.of_nat c)%Z in
      is_first_best (sel (is_left a) a (log es)) vl il /\
      is_first_best (sel (is_right a) a (log es)) vr ir.
Proof. intros A NA OL. exact C38_lemma. Qed.
Print Assumptions C38_streaming_history.

Theorem C38_streaming_merged : forall A (NA : NumOps A) (OL : OrdLaws A) memn memz sf h w (es : list (event (num A))),
  (1 <= sf)%Q -> (sf <= 2)%Q -> 0 < w -> Forall (fits h w) es -> Forall cols_no_nan es ->
  exists s0 s, smp_init memn memz sf h w = Ok s0 /\ smp_run s0 es = Ok s /\
    length (smp_mp s) = w /\ length (smp_idx s) = w /\
    forall c, c < w -> exists v i,
      nth_error (smp_mp s) c = Some v /\ nth_error (smp_idx s) c = Some i /\
      let a := (sshift es + Z.of_nat c)%Z in is_best (sel all_rows a (log es)) v i.
Proof. intros A NA OL. exact C38_merged_lemma. Qed.
Print Assumptions C38_streaming_merged.

(** Two series shifts and a query shift; the second column is delivered twice, in different windows. *)
Example C38_case :
  (do s <- smp_init (fun _ => NaN) (fun _ => 77%Z) (3 # 2)%Q 2 3;
   do s <- smp_run s [ECol 0 [[Fz 5; Fz 6]]; ECol 1 [[Fz 4; Fz 4]]; EShiftS 1; EShiftQ 2;
                      ECol 0 [[Fz 9; Fz 3]]; EDiag 2 [[Fz 8]]; EShiftS 0; EDiag (-1) [[Fz 1]]; EShiftS 1;
                      ECol 2 [[Fz 7; Fz 2]]];
   Ok (rb_view (s_left s), rb_view (s_ileft s), rb_view (s_right s), rb_view (s_iright s), smp_mp s, smp_idx s))
  = Ok ([PInf; Fz 8; Fz 2], [-1; 2; 3]%Z, [PInf; PInf; PInf], [-1; -1; -1]%Z,
        [PInf; Fz 8; Fz 2], [-1; 2; 3]%Z).
Proof. vm_compute. reflexivity. Qed.

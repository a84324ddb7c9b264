(** * PropFilter: properties of distancematrix/generator/filter_generator.py *)
From Coq Require Import QArith Reals Lra Sorted.
From Verif Require Import Np NpFacts Inst MRing MEuclid MZnorm MFilter SReal SCalc SGen SFilter PFilter PFilterReal PGenRun PEuclid PZnorm.
Set Implicit Arguments.
Open Scope nat_scope.

(** C22. A subsequence is marked iff one of its points is invalid. *)
Theorem C22_mask : forall bad m, 0 < m -> m <= length bad + 1 ->
  exists mask, invalid_subseq bad m = Ok mask /\ length mask = length bad + 1 - m /\
  forall i, i + m <= length bad -> (nth_error mask i = Some true <-> exists k, k < m /\ nth_error bad (i + k) = Some true).
Proof.
  intros bad m Hm HL. exists (windowed (existsb (fun b => b)) m bad). split; [apply invalid_subseq_ok; assumption|]. split; [unfold windowed; rewrite map_length, seq_length; reflexivity|].
  intros i Hi. rewrite <- spoiled_spec by exact Hi. unfold windowed. rewrite nth_error_map, nth_error_seq.
  destruct (Nat.ltb_spec i (length bad + 1 - m)); [|lia]. cbn [option_map Nat.add]. unfold spoiled. split; [congruence|intros ->; reflexivity].
Qed.
Print Assumptions C22_mask.
Example C22_example : invalid_subseq [false; true; false; false; false; true; false] 3 = Ok [true; true; false; true; true].
Proof. reflexivity. Qed.

(** C23. Every wrapped generator, every validity function: after any calculations, a column or diagonal is that of the wrapped
    generator, which was prepared with 0 for every invalid point, with +inf for the subsequences with invalid points. *)
Section C23.
  Context {A : Type} {NA : NumOps A}.
  Notation num := (Np.num A).
  Variable G : Type.
  Variable g_col : G -> nat -> res (G * list num).
  Variable g_diag : G -> Z -> res (G * list num).
  (** columns and diagonals; there is nothing else to call *)
  Definition fb_calls := grun (fb_calc_column g_col) (fb_calc_diagonal g_diag) (fun _ (_ : list num) => Err TypeError) (fun _ _ => Err TypeError).
  Definition fs_calls (g_s g_q : G -> list num -> res G) (invalid : list num -> nat -> list bool) :=
    grun (fs_calc_column g_col) (fs_calc_diagonal g_diag) (fs_append_series g_s invalid) (fs_append_query g_q invalid).
End C23.
Theorem C23_filter : forall A (NA : NumOps A) G (g_col : G -> nat -> res (G * list (Np.num A))) g_diag invalid prepare sf m S q H f0 f, let Q := query_or S q in
  0 < m -> fb_prepare invalid prepare sf m S q = Ok f0 -> fb_calls g_col g_diag f0 H = Ok f ->
  let bs := invalid S m in let bq := invalid Q m in
  prepare m (cleaned invalid m S) (option_map (cleaned invalid m) q) = Ok (fb_g f0) /\ length bs = length S /\ length bq = length Q /\
  (forall c, c + m <= length S -> spoiled m bs c = true -> fb_calc_column g_col f c = Ok (f, repeat PInf (length Q + 1 - m))) /\
  (forall c g col, c + m <= length S -> spoiled m bs c = false -> g_col (fb_g f) c = Ok (g, col) -> length col = length Q + 1 - m ->
    exists f', fb_calc_column g_col f c = Ok (f', filtered_col m bs bq c col) /\ fb_g f' = g) /\
  (forall d g diag, has_diag m S Q d -> g_diag (fb_g f) d = Ok (g, diag) -> length diag = Z.to_nat (dlen (length Q + 1 - m) (length S + 1 - m) d) ->
    exists f', fb_calc_diagonal g_diag f d = Ok (f', filtered_diag m bs bq d diag) /\ fb_g f' = g).
Proof.
  intros A NA G g_col g_diag invalid prepare sf m S q H f0 f Q0 Hm Ep Er bs bq.
  destruct (fb_prepared invalid Hm prepare sf S q Ep) as (Hsf & L1 & L2 & _ & _ & Eg & I0). fold Q0 in L2, I0. fold bs in L1, I0. fold bq in L2, I0.
  split; [exact Eg|]. split; [exact L1|]. split; [exact L2|].
  assert (I : fb_inv m bs bq f).
  { clear Ep Eg. revert f0 I0 Er. unfold fb_calls, grun. induction H as [|o H IH]; intros f0 I0 Er; cbn [foldM] in Er; [inversion Er; subst; exact I0|].
    destruct o; cbn [gstep] in Er; try discriminate.
    - destruct (fb_calc_column g_col f0 c) as [[f1 v]|] eqn:E; [|discriminate]. cbn [bind fst] in Er. apply (IH f1); [eapply fb_keeps_col; eassumption|exact Er].
    - destruct (fb_calc_diagonal g_diag f0 d) as [[f1 v]|] eqn:E; [|discriminate]. cbn [bind fst] in Er. apply (IH f1); [eapply fb_keeps_diag; eassumption|exact Er]. }
  split; [|split].
  - intros c Hc Hs. rewrite <- L2. apply fb_col_spoiled with (bs := bs); auto. lia.
  - intros c g col Hc Hs Ec Lc. destruct (@fb_col A G g_col m Hm bs bq f c g col I) as (f' & E' & _ & G'); auto; try lia. eauto.
  - intros d g diag Hd Ed Ld. destruct (@fb_diag A G g_diag m Hm bs bq f d g diag I) as (f' & E' & _ & G'); eauto; [|rewrite L1, L2; exact Ld].
    destruct Hd as (i & j & Hd). exists i, j. rewrite L1, L2. exact Hd.
Qed.
Print Assumptions C23_filter.

(** Preparing only fails if the validity function gives the wrong size, the data is too short, or the wrapped generator fails. *)
Theorem C23_prepare : forall A (NA : NumOps A) G invalid (prepare : nat -> list (Np.num A) -> option (list (Np.num A)) -> res G) sf m S q g, let Q := query_or S q in
  0 < m -> (1 <= sf)%Q -> length (invalid S m) = length S -> length (invalid Q m) = length Q -> m <= length S + 1 -> m <= length Q + 1 ->
  prepare m (cleaned invalid m S) (option_map (cleaned invalid m) q) = Ok g -> exists f, fb_prepare invalid prepare sf m S q = Ok f /\ fb_g f = g.
Proof. intros. apply fb_prepares; assumption. Qed.
Print Assumptions C23_prepare.

(** C23 for the distances of the package, with the default validity function: the data may have NaN and infinities anywhere. *)
Theorem C23_nonfinite_znorm : forall mem memb noise sf sf' m S q, let Q := query_or S q in
  0 < m -> m <= length S -> m <= length Q -> (1 <= sf)%Q -> (1 <= sf')%Q -> (0 <= noise)%R ->
  exists f0, fb_prepare (@is_not_finite R) (fun m s q => zn_prepare mem memb (Fin noise) sf m s q) sf' m S q = Ok f0 /\
  forall H, calc_only m S Q H -> exists f, fb_calls (zn_calc_column mem) (@zn_calc_diagonal R NumR) f0 H = Ok f /\
  (forall d, has_diag m S Q d -> exists f', fb_calc_diagonal (@zn_calc_diagonal R NumR) f d = Ok (f', diag_or_inf (zdist noise) m S Q d)) /\
  (forall c, c + m <= length S -> exists f', fb_calc_column (zn_calc_column mem) f c = Ok (f', col_or_inf (zdist noise) m S Q c)).
Proof.
  intros mem memb noise sf sf' m S q Q0 Hm HS HQ H1 H2 Hn. unfold Q0 in *.
  assert (Qv : query_or (map val S) (option_map (map val) q) = map val (query_or S q)) by (destruct q; reflexivity).
  assert (Qc : option_map (cleaned (@is_not_finite R) m) q = option_map (map (@Fin R)) (option_map (map val) q)) by (destruct q; cbn; rewrite ?inf_cleaned; reflexivity).
  destruct (@zn_batch_all mem memb noise sf m (map val S) (option_map (map val) q) Hm) as (g0 & E0 & B); [rewrite map_length; exact HS|rewrite Qv, map_length; exact HQ|exact H1|exact Hn|].
  rewrite Qv in B.
  assert (Ep : zn_prepare mem memb (Fin noise) sf m (cleaned (@is_not_finite R) m S) (option_map (cleaned (@is_not_finite R) m) q) = Ok g0).
  { rewrite inf_cleaned, Qc. exact E0. }
  pose proof (@fb_prepares R NumR _ (@is_not_finite R) m Hm (fun m s q => zn_prepare mem memb (Fin noise) sf m s q) sf' S q g0 H2) as P.
  destruct P as (f0 & Ef & Eg); [apply inf_length|apply inf_length|lia|lia|exact Ep|]. exists f0. split; [exact Ef|]. intros H Hc.
  pose proof (fb_prepared _ Hm _ _ _ _ Ef) as (_ & _ & _ & _ & _ & _ & I0).
  apply (@fixed_answers _ (zn_calc_column mem) (@zn_calc_diagonal R NumR) (@zn_append_series R NumR) (@zn_append_query R NumR) (zdist noise) m Hm S q HQ g0); auto.
  intros K HK. destruct (B K HK) as (g & E & [D _] & C). exists g. split; [exact E|]. split; [exact D|]. intros c Hcol. apply C. rewrite map_length. exact Hcol.
Qed.
Print Assumptions C23_nonfinite_znorm.

Theorem C23_nonfinite_euclid : forall mem sf sf' m S q, let Q := query_or S q in
  0 < m -> m <= length S -> m <= length Q -> (1 <= sf)%Q -> (1 <= sf')%Q -> separated m (map val S) (map val Q) ->
  exists f0, fb_prepare (@is_not_finite R) (fun m s q => eu_prepare mem sf m s q) sf' m S q = Ok f0 /\
  forall H, calc_only m S Q H -> exists f, fb_calls (eu_calc_column mem) (@eu_calc_diagonal R NumR) f0 H = Ok f /\
  (forall d, has_diag m S Q d -> exists f', fb_calc_diagonal (@eu_calc_diagonal R NumR) f d = Ok (f', diag_or_inf euclid m S Q d)) /\
  (forall c, c + m <= length S -> exists f', fb_calc_column (eu_calc_column mem) f c = Ok (f', col_or_inf euclid m S Q c)).
Proof.
  intros mem sf sf' m S q Q0 Hm HS HQ H1 H2 Hs. unfold Q0 in *.
  assert (Qv : query_or (map val S) (option_map (map val) q) = map val (query_or S q)) by (destruct q; reflexivity).
  assert (Qc : option_map (cleaned (@is_not_finite R) m) q = option_map (map (@Fin R)) (option_map (map val) q)) by (destruct q; cbn; rewrite ?inf_cleaned; reflexivity).
  assert (HS' : m <= length (map val S)) by (rewrite map_length; exact HS).
  assert (HQ' : m <= length (query_or (map val S) (option_map (map val) q))) by (rewrite Qv, map_length; exact HQ).
  destruct (eu_batch_state mem (map val S) (option_map (map val) q) E1 Hm HS' HQ' H1) as (g0 & E0 & _).
  assert (Ep : eu_prepare mem sf m (cleaned (@is_not_finite R) m S) (option_map (cleaned (@is_not_finite R) m) q) = Ok g0).
  { rewrite inf_cleaned, Qc. exact E0. }
  pose proof (@fb_prepares R NumR _ (@is_not_finite R) m Hm (fun m s q => eu_prepare mem sf m s q) sf' S q g0 H2) as P.
  destruct P as (f0 & Ef & Eg); [apply inf_length|apply inf_length|lia|lia|exact Ep|]. exists f0. split; [exact Ef|]. intros H Hc.
  pose proof (fb_prepared _ Hm _ _ _ _ Ef) as (_ & _ & _ & _ & _ & _ & I0).
  apply (@fixed_answers _ (eu_calc_column mem) (@eu_calc_diagonal R NumR) (@eu_append_series R) (@eu_append_query R) euclid m Hm S q HQ g0); auto.
  intros K HK.
  assert (HK' : calc_only m (map val S) (query_or (map val S) (option_map (map val) q)) K) by (rewrite Qv; exact HK).
  destruct (@eu_batch_exact mem sf m (map val S) (option_map (map val) q) Hm HS' HQ' H1 K 0) as (g1 & g & g' & F0 & F1 & _); [rewrite Qv; exact Hs|exact HK'|exact HS'|].
  assert (g1 = g0) by congruence. subst g1. exists g. split; [exact F1|]. split.
  - intros d Hd. destruct (@eu_batch_diag mem sf m (map val S) (option_map (map val) q) Hm HS' HQ' H1 K d HK') as (g1 & g2 & F2 & F3 & F4); [rewrite Qv; exact Hd|].
    assert (g1 = g0) by congruence. subst g1. assert (g2 = g) by congruence. subst g2. rewrite Qv in F4. exact F4.
  - intros c Hcol. destruct (@eu_batch_exact mem sf m (map val S) (option_map (map val) q) Hm HS' HQ' H1 K c) as (g1 & g2 & g3 & F2 & F3 & F4);
      [rewrite Qv; exact Hs|exact HK'|rewrite map_length; exact Hcol|].
    assert (g1 = g0) by congruence. subst g1. assert (g2 = g) by congruence. subst g2. rewrite Qv in F4. eauto.
Qed.
Print Assumptions C23_nonfinite_euclid.

(** On integers, with the Euclidean distance and a NaN in series and query *)
Definition zs (l : list Z) : list (num Z) := map (@Fin Z) l.
Example C23_example :
  (do f <- fb_prepare (@is_not_finite Z) (fun m s q => eu_prepare (fun _ => NaN) 2 m s q) 2 2 (zs [0; 4]%Z ++ NaN :: zs [1; 5; 2]%Z) (Some (zs [3; 0; 4]%Z ++ PInf :: zs [9; 9]%Z));
   do a <- fb_calc_column (eu_calc_column (fun _ => NaN)) f 0; do b <- fb_calc_column (eu_calc_column (fun _ => NaN)) (fst a) 1;
   do c <- fb_calc_column (eu_calc_column (fun _ => NaN)) (fst b) 3; do d <- fb_calc_diagonal (@eu_calc_diagonal Z NumZ) (fst c) (-1);
   do e <- fb_calc_diagonal (@eu_calc_diagonal Z NumZ) (fst d) 2; Ok [snd a; snd b; snd c; snd d; snd e])
  = Ok [[Fin 5; Fin 0; PInf; PInf; Fin 10]; [PInf; PInf; PInf; PInf; PInf]; [Fin 5; Fin 1; PInf; PInf; Fin 8]; [Fin 0; PInf; PInf; Fin 8]; [PInf; Fin 1; PInf]]%Z.
Proof. vm_compute. reflexivity. Qed.

(** C24. Streaming: whatever was appended and calculated, the masks are those of the points in the windows, and the wrapped
    generator got the same calls with 0 for the invalid points (but not the columns of spoiled subsequences). *)
Theorem C24_masks : forall A (NA : NumOps A) G (g_col : G -> nat -> res (G * list (Np.num A))) g_diag g_s g_q invalid memb prepare sf m W Wq (self : bool) g0,
  0 < m -> m <= W -> (self = false -> m <= Wq) -> (1 <= sf)%Q -> (sf <= 2)%Q -> prepare m W (if self then None else Some Wq) = Ok g0 ->
  exists f0, fs_prepare memb prepare sf m W (if self then None else Some Wq) = Ok f0 /\
  forall H f, Forall (proper_call invalid m) H -> fs_calls g_col g_diag g_s g_q invalid f0 H = Ok f ->
  let bs := badS invalid m W H in let bq := badQ invalid m self W Wq H in
  rb_view (fs_ms f) = map (spoiled m bs) (seq 0 (length bs + 1 - m)) /\
  rb_view (fs_qmask f) = map (spoiled m bq) (seq 0 (length bq + 1 - m)) /\
  grun g_col g_diag g_s g_q g0 (passed invalid m W [] H) = Ok (fs_g f) /\
  (** and the answers are filtered accordingly *)
  (forall c, c + m <= length bs -> spoiled m bs c = true -> fs_calc_column g_col f c = Ok (f, repeat PInf (length bq + 1 - m))) /\
  (forall c g col, c + m <= length bs -> spoiled m bs c = false -> g_col (fs_g f) c = Ok (g, col) -> length col = length bq + 1 - m ->
    exists f', fs_calc_column g_col f c = Ok (f', filtered_col m bs bq c col) /\ fs_g f' = g) /\
  (forall d g diag, has_diag m bs bq d -> g_diag (fs_g f) d = Ok (g, diag) -> length diag = Z.to_nat (dlen (length bq + 1 - m) (length bs + 1 - m) d) ->
    exists f', fs_calc_diagonal g_diag f d = Ok (f', filtered_diag m bs bq d diag) /\ fs_g f' = g).
Proof.
  intros A NA G g_col g_diag g_s g_q invalid memb prepare sf m W Wq self g0 Hm HW HWq H1 H2 Ep.
  destruct (@fs_prepared G m Hm self W Wq HW HWq memb prepare sf g0 H1 H2 Ep) as (f0 & E0 & Eg & I0). exists f0. split; [exact E0|].
  intros H f HP Er bs bq.
  destruct (@fs_run_inv A NA G g_col g_diag g_s g_q invalid m Hm self W Wq HW HWq [] f0 H f) as [I R1]; [unfold badS, badQ, wQ, wS; cbn; destruct self; exact I0|exact HP|exact Er|].
  cbn [app] in I. fold bs in I. fold bq in I. destruct (fi_view I) as [V1 V2]. split; [exact V1|]. split; [exact V2|]. split; [rewrite <- Eg; exact R1|].
  split; [|split].
  - intros c Hc Hs. eapply fs_col_spoiled; eauto.
  - intros c g col Hc Hs Ec Lc. exists (fs_with f g). split; [eapply fs_col; eauto|reflexivity].
  - intros d g diag Hd Ed Ld. exists (fs_with f g). split; [eapply fs_diag; eauto|reflexivity].
Qed.
Print Assumptions C24_masks.

(** An append fails only if the wrapped generator fails. *)
Theorem C24_appends : forall A (NA : NumOps A) G (g_col : G -> nat -> res (G * list (Np.num A))) g_diag g_s g_q invalid memb prepare sf m W Wq (self : bool) g0,
  0 < m -> m <= W -> (self = false -> m <= Wq) -> (1 <= sf)%Q -> (sf <= 2)%Q -> prepare m W (if self then None else Some Wq) = Ok g0 ->
  exists f0, fs_prepare memb prepare sf m W (if self then None else Some Wq) = Ok f0 /\
  forall H f xs, Forall (proper_call invalid m) H -> fs_calls g_col g_diag g_s g_q invalid f0 H = Ok f -> xs <> [] -> length (invalid xs m) = length xs ->
  (forall g, g_s (fs_g f) (cleaned invalid m xs) = Ok g -> exists f', fs_append_series g_s invalid f xs = Ok f' /\ fs_g f' = g) /\
  (forall g, self = false -> g_q (fs_g f) (cleaned invalid m xs) = Ok g -> exists f', fs_append_query g_q invalid f xs = Ok f' /\ fs_g f' = g).
Proof.
  intros A NA G g_col g_diag g_s g_q invalid memb prepare sf m W Wq self g0 Hm HW HWq H1 H2 Ep.
  destruct (@fs_prepared G m Hm self W Wq HW HWq memb prepare sf g0 H1 H2 Ep) as (f0 & E0 & Eg & I0). exists f0. split; [exact E0|].
  intros H f xs HP Er Hx L.
  destruct (@fs_run_inv A NA G g_col g_diag g_s g_q invalid m Hm self W Wq HW HWq [] f0 H f) as [I R1]; [unfold badS, badQ, wQ, wS; cbn; destruct self; exact I0|exact HP|exact Er|].
  split.
  - intros g Ec. destruct (@fs_series A NA G g_s invalid m Hm self W Wq HW _ _ f xs I Hx L) as [(e & Ee & _)|(f' & Ef & E' & _)]; [congruence|]. exists f'. split; [exact E'|congruence].
  - intros g Hs Ec. destruct (@fs_query A NA G g_q invalid m Hm self W Wq HWq _ _ f xs Hs I Hx L) as [(e & Ee & _)|(f' & Ef & E' & _)]; [congruence|]. exists f'. split; [exact E'|congruence].
Qed.
Print Assumptions C24_appends.

(** Chunks do not matter for the default validity function: the masks are those of the data in the windows *)
Theorem C24_chunks : forall m W Wq self H, badS (@is_not_finite R) m W H = is_not_finite (wS W H) m /\ badQ (@is_not_finite R) m self W Wq H = is_not_finite (wQ self W Wq H) m.
Proof. intros. split; [apply badS_inf|apply badQ_inf]. Qed.
Print Assumptions C24_chunks.

(** Streaming z-normalised distances of data with NaN and infinities.  Missing: untrusted histories (C21). *)
Theorem C24_nonfinite_znorm_partial : forall mem memb memb' noise sf sf' m W Wq (self : bool),
  0 < m -> m <= W -> (self = false -> m <= Wq) -> (1 <= sf)%Q -> (sf <= 2)%Q -> (1 <= sf')%Q -> (sf' <= 2)%Q -> (0 <= noise)%R ->
  exists f0, fs_prepare memb' (zn_prepare_streaming mem memb (Fin noise) sf) sf' m W (if self then None else Some Wq) = Ok f0 /\
  forall H, in_range self m W Wq H -> trusted self W H -> chunked H ->
  exists f, fs_calls (zn_calc_column mem) (@zn_calc_diagonal R NumR) (@zn_append_series R NumR) (@zn_append_query R NumR) (@is_not_finite R) f0 H = Ok f /\
  (forall d, has_diag m (wS W H) (wQ self W Wq H) d ->
    exists f', fs_calc_diagonal (@zn_calc_diagonal R NumR) f d = Ok (f', diag_or_inf (zdist noise) m (wS W H) (wQ self W Wq H) d)) /\
  (forall c, has_col m (wS W H) (wQ self W Wq H) c -> trusted self W (H ++ [CCol c]) ->
    exists f', fs_calc_column (zn_calc_column mem) f c = Ok (f', col_or_inf (zdist noise) m (wS W H) (wQ self W Wq H) c)).
Proof.
  intros mem memb memb' noise sf sf' m W Wq self Hm HW HWq H1 H2 H3 H4 Hn.
  destruct (@zn_stream_all mem memb noise sf m W Wq self Hm HW HWq H1 H2 Hn) as (g0 & E0 & B).
  destruct (@fs_prepared _ m Hm self W Wq HW HWq memb' (zn_prepare_streaming mem memb (Fin noise) sf) sf' g0 H3 H4 E0) as (f0 & Ef & Eg & I0). exists f0. split; [exact Ef|].
  intros H Hr Ht Hc.
  destruct (@stream_answers _ (zn_calc_column mem) (@zn_calc_diagonal R NumR) (@zn_append_series R NumR) (@zn_append_query R NumR) (zdist noise) (fun _ _ => True) m Hm self W Wq HW HWq g0) with (f0 := f0) (H := H) as (f & Er & D & C); auto.
  - intros K HrK HtK _. destruct (B K HrK HtK) as (g & E & [D _] & C). exists g. split; [exact E|]. split; [exact D|]. intros c Hcol Htc _. exact (C c Hcol Htc).
  - unfold badS, badQ, wQ, wS. cbn. destruct self; exact I0.
  - intros H5 c H6 _. exact I.
  - exists f. split; [exact Er|]. split; [exact D|]. intros c Hcol Htc. apply C; auto. intros H5 c' H6 _. exact I.
Qed.
Print Assumptions C24_nonfinite_znorm_partial.

(** The window slides over a NaN *)
Definition eu_filter (H : list (gcall (num Z))) (c : nat) : res (list bool * list (num Z)) :=
  do f0 <- fs_prepare (fun _ => true) (eu_prepare_streaming (fun _ => NaN) 2) 2 2 4 None;
  do f <- fs_calls (eu_calc_column (fun _ => NaN)) (@eu_calc_diagonal Z NumZ) (@eu_append_series Z) (@eu_append_query Z) (@is_not_finite Z) f0 H;
  do r <- fs_calc_column (eu_calc_column (fun _ => NaN)) f c; Ok (rb_view (fs_ms f), snd r).
Example C24_example :
  eu_filter [CSeries [Fin 1; Fin 2; NaN; Fin 4]; CCol 1; CSeries [Fin 5]; CCol 2]%Z 2 = Ok ([true; true; false], [PInf; PInf; Fin 0])%Z /\
  eu_filter [CSeries [Fin 1]; CSeries [Fin 2; NaN]; CSeries [Fin 4; Fin 5]; CCol 0]%Z 2 = Ok ([true; true; false], [PInf; PInf; Fin 0])%Z /\
  eu_filter [CSeries [Fin 1; Fin 2; NaN; Fin 4]; CCol 0; CSeries [Fin 5; Fin 8]; CCol 1]%Z 2 = Ok ([true; false; false], [PInf; Fin 3; Fin 0])%Z.
Proof. repeat split; vm_compute; reflexivity. Qed.

(** Refuted for empty chunks: an exception for m = 2, a wrong mask for m = 1. *)
Theorem C24_empty_refuted :
  (exists f0, fs_prepare (fun _ => true) (eu_prepare_streaming (fun _ => NaN) 2) 2 2 4 None = Ok f0 /\
   fs_calls (eu_calc_column (fun _ => NaN)) (@eu_calc_diagonal Z NumZ) (@eu_append_series Z) (@eu_append_query Z) (@is_not_finite Z) f0
     [CSeries [Fin 1; Fin 2]; CSeries []]%Z = Err ValueError) /\
  (exists f0 f, fs_prepare (fun _ => true) (eu_prepare_streaming (fun _ => NaN) 2) 2 1 4 None = Ok f0 /\
   fs_calls (eu_calc_column (fun _ => NaN)) (@eu_calc_diagonal Z NumZ) (@eu_append_series Z) (@eu_append_query Z) (@is_not_finite Z) f0
     [CSeries [Fin 1; NaN; Fin 3]; CSeries []]%Z = Ok f /\
   badS (@is_not_finite Z) 1 4 [CSeries [Fin 1; NaN; Fin 3]; CSeries []]%Z = [false; true; false] /\ rb_view (fs_ms f) = [false; false; true; false]).
Proof.
  split.
  - eexists. split; vm_compute; reflexivity.
  - do 2 eexists. split; [vm_compute; reflexivity|]. split; [vm_compute; reflexivity|]. split; vm_compute; reflexivity.
Qed.
Print Assumptions C24_empty_refuted.

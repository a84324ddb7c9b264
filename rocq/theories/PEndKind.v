(** * PEndKind: the generators of complete programs *)
From Coq Require Import QArith Reals Lra Permutation.
From Verif Require Import Np NpFacts Mat SLog MEuclid MZnorm MFilter MCalc SReal SCalc SMixed SGen SFilter SEnd SEndAll PArith PCalc PMixed PEnd PEndAll PEuclid PZgeo PZnorm PFilter PFilterReal PropFilter PropEnd.
Set Implicit Arguments.
Open Scope nat_scope.

Lemma fin_val S : all_finite S -> S = fin (map val S).
Proof. induction S as [|x S IH]; intro H; [reflexivity|]. cbn. f_equal; [|apply IH; intros y Hy; apply H; right; exact Hy]. specialize (H x ltac:(left; reflexivity)). destruct x; try discriminate. reflexivity. Qed.
Lemma sub_map {X Y} (f : X -> Y) m S i : sub m (map f S) i = map f (sub m S i).
Proof. unfold sub. rewrite skipn_map, firstn_map. reflexivity. Qed.
Lemma all_finite_sub S m i : all_finite S -> forallb finite (sub m S i) = true.
Proof.
  intro H. apply forallb_forall. intros x Hx. apply H. unfold sub in Hx. rewrite <- (firstn_skipn i S). apply in_app_iff. right. rewrite <- (firstn_skipn m (skipn i S)). apply in_app_iff. left. exact Hx.
Qed.
Lemma dist_finite dist m S Q r c : all_finite S -> all_finite Q -> dist_or_inf dist (sub m Q r) (sub m S c) = Fin (dist (sub m (map val Q) r) (sub m (map val S) c)).
Proof. intros HS HQ. unfold dist_or_inf. rewrite !all_finite_sub by assumption. cbn [andb]. rewrite !sub_map. reflexivity. Qed.
Lemma col_finite dist m S Q c : all_finite S -> all_finite Q -> col_or_inf dist m S Q c = col_dist dist m (map val S) (map val Q) c.
Proof. intros HS HQ. unfold col_or_inf, col_dist. rewrite map_length. apply map_ext. intro r. apply dist_finite; assumption. Qed.
Lemma diag_finite dist m S Q d : all_finite S -> all_finite Q -> diag_or_inf dist m S Q d = diag_dist dist m (map val S) (map val Q) d.
Proof. intros HS HQ. unfold diag_or_inf, diag_dist, diag_of, cell_dist. rewrite !map_length. apply map_ext. intro r. apply dist_finite; assumption. Qed.

Lemma kdist_sym k x y : length x = length y -> kdist k x y = kdist k y x.
Proof. destruct k; cbn; intro L; try (apply zdist_sym; exact L). unfold euclid. rewrite sqd_sym. reflexivity. Qed.
Lemma dist_or_inf_sym dist x y : (length x = length y -> dist (map val x) (map val y) = dist (map val y) (map val x)) -> length x = length y -> dist_or_inf dist x y = dist_or_inf dist y x.
Proof. intros H L. unfold dist_or_inf. rewrite andb_comm. destruct (_ && _); [|reflexivity]. f_equal. auto. Qed.

Lemma kind_answers mem memb sf sf' k m (S : list (num R)) q : let Q := query_or S q in
  0 < m -> m <= length S -> m <= length Q -> (1 <= sf)%Q -> (1 <= sf')%Q -> kind_ok k -> data_ok k m S Q ->
  exists g0, kprepare mem memb sf sf' k (Z.of_nat m) S q = Ok g0 /\
  forall H, calc_only m S Q H -> exists g, grun (kcol mem k) (@kdiag k) (fun _ (_ : list (num R)) => Err TypeError) (fun _ _ => Err TypeError) g0 H = Ok g /\
    (forall c, c + m <= length S -> exists g', kcol mem k g c = Ok (g', col_or_inf (kdist k) m S Q c)) /\
    (forall d, has_diag m S Q d -> exists g', kdiag k g d = Ok (g', diag_or_inf (kdist k) m S Q d)).
Proof.
  intros Q Hm HS HQ H1 H2 Hk Hd. destruct k as [noise| |noise]; cbn [kstate kprepare kcol kdiag kdist kind_ok data_ok] in *; rewrite ?Nat2Z.id.
  - destruct Hd as [FS FQ]. pose (S' := map val S). pose (q' := option_map (map val) q). assert (EQ : query_or S' q' = map val Q) by (unfold Q, S', q'; destruct q; reflexivity).
    assert (LS : m <= length S') by (unfold S'; rewrite map_length; exact HS). assert (LQ : m <= length (query_or S' q')) by (rewrite EQ, map_length; exact HQ).
    assert (Eq : option_map (map (@Fin R)) q' = q) by (unfold q', Q in *; destruct q as [q|]; [|reflexivity]; cbn in *; f_equal; symmetry; apply fin_val; exact FQ).
    destruct (@zn_batch_all mem memb noise sf m S' q' Hm LS LQ H1 Hk) as (g0 & E0 & A0). rewrite Eq in E0. unfold S' in E0. rewrite <- (fin_val FS) in E0. exists g0. split; [exact E0|]. rewrite EQ in A0.
    intros H Hc. destruct (@adapt _ (zn_calc_column mem) (@zn_calc_diagonal R NumR) (@zn_append_series R NumR) (@zn_append_query R NumR) m S' (map val Q) g0
      (fun g => zn_answers noise m S' (map val Q) g /\ forall c, c + m <= length S' -> zn_cols mem noise m S' (map val Q) g c) A0 H) as (g & Eg & [D1 _] & C1).
    { unfold S'. rewrite <- (fin_val FS), <- (fin_val FQ). exact Hc. }
    exists g. split; [exact Eg|]. split.
    + intros c Hcol. rewrite col_finite by assumption. apply C1. unfold S'. rewrite map_length. exact Hcol.
    + intros d Hdg. exists g. rewrite diag_finite by assumption. apply D1. eapply has_diag_length; [..|exact Hdg]; unfold S'; rewrite map_length; reflexivity.
  - destruct Hd as (FS & FQ & Hsep). pose (S' := map val S). pose (q' := option_map (map val) q). assert (EQ : query_or S' q' = map val Q) by (unfold Q, S', q'; destruct q; reflexivity).
    assert (LS : m <= length S') by (unfold S'; rewrite map_length; exact HS). assert (LQ : m <= length (query_or S' q')) by (rewrite EQ, map_length; exact HQ).
    assert (Eq : option_map (map (@Fin R)) q' = q) by (unfold q', Q in *; destruct q as [q|]; [|reflexivity]; cbn in *; f_equal; symmetry; apply fin_val; exact FQ).
    destruct (eu_batch_state mem S' q' E1 Hm LS LQ H1) as (g0 & E0 & _). exists g0. split; [rewrite <- E0, Eq; unfold S'; rewrite <- (fin_val FS); reflexivity|]. rewrite <- EQ in Hsep.
    intros H Hc. destruct (@adapt _ (eu_calc_column mem) (@eu_calc_diagonal R NumR) (@eu_append_series R) (@eu_append_query R) m S' (map val Q) g0
      (fun g => (forall c, c + m <= length S' -> exists g', eu_calc_column mem g c = Ok (g', col_dist euclid m S' (map val Q) c)) /\ (forall d, has_diag m S' (map val Q) d -> exists g', eu_calc_diagonal g d = Ok (g', diag_dist euclid m S' (map val Q) d)))) with (H := H) as (g & Eg & C1 & D1).
    { clear H Hc. intros H Hc. rewrite <- EQ in Hc. destruct (@eu_batch_exact mem sf m S' q' Hm LS LQ H1 H 0 Hsep Hc LS) as (g1 & g & g' & F0 & F1 & _). assert (g1 = g0) by congruence. subst g1. exists g. split; [exact F1|]. rewrite <- EQ. split.
      + intros c Hcol. destruct (@eu_batch_exact mem sf m S' q' Hm LS LQ H1 H c Hsep Hc Hcol) as (g1 & g2 & g3 & F2 & F3 & F4). assert (g1 = g0) by congruence. subst g1. assert (g2 = g) by congruence. subst g2. eauto.
      + intros d Hdg. destruct (@eu_batch_diag mem sf m S' q' Hm LS LQ H1 H d Hc Hdg) as (g1 & g2 & F2 & F3 & F4). assert (g1 = g0) by congruence. subst g1. assert (g2 = g) by congruence. subst g2. eauto. }
    { unfold S'. rewrite <- (fin_val FS), <- (fin_val FQ). exact Hc. }
    exists g. split; [exact Eg|]. split.
    + intros c Hcol. rewrite col_finite by assumption. apply C1. unfold S'. rewrite map_length. exact Hcol.
    + intros d Hdg. rewrite diag_finite by assumption. apply D1. eapply has_diag_length; [..|exact Hdg]; unfold S'; rewrite map_length; reflexivity.
  - destruct (@C23_nonfinite_znorm mem memb noise sf sf' m S q Hm HS HQ H1 H2 Hk) as (f0 & E0 & A0). exists f0. split; [exact E0|]. intros H Hc. destruct (A0 H Hc) as (f & Ef & D1 & C1). exists f. auto.
Qed.

(** The generator of each id gives the columns and diagonals of [matrix_of] *)
Lemma kinds_give mem memb sf sf' k m n nq (series : list (list (num R))) query buffer dims : let h := nq + 1 - m in let w := n + 1 - m in
  proper_input m n nq series query buffer -> (1 <= sf)%Q -> (1 <= sf')%Q -> kind_ok k ->
  (forall d, In d dims -> d < length series /\ data_ok k m (nth d series []) (nth d (rows_or series query) [])) ->
  exists gs (I : nat -> kstate k -> Prop),
    Forall2 (fun d g => d < length series /\ kprepare mem memb sf sf' k (Z.of_nat m) (nth d series []) (option_map (fun q => nth d q []) query) = Ok g) dims gs /\
    (forall id g, nth_error gs id = Some g -> I id g) /\
    gives (kcol mem k) I (fun id => column_of h (matrix_of k m dims series query id)) (fun c => c < w) (fun _ => h) /\
    gives (@kdiag k) I (fun id => diagonal_of h w (matrix_of k m dims series query id)) (on_matrix h w) (fun d => Z.to_nat (dlen h w d)).
Proof.
  intros h w (Hm & Hn & Hnq & HR & Hq & Hb) Hsf Hsf' Hk Hd.
  assert (LS : forall d, d < length series -> length (nth d series []) = n) by (intros d Hl; apply HR, nth_In, Hl).
  assert (LQ : forall d, d < length series -> length (nth d (rows_or series query) []) = nq).
  { intros d Hl. destruct query as [q|]; cbn [rows_or]; [|rewrite Hq; apply LS, Hl]. destruct Hq as [Hq El]. apply Hq, nth_In. lia. }
  assert (QQ : forall d, query_or (nth d series []) (option_map (fun q => nth d q []) query) = nth d (rows_or series query) []) by (intro d; destruct query; reflexivity).
  set (run := grun (kcol mem k) (@kdiag k) (fun _ (_ : list (num R)) => Err TypeError) (fun _ _ => Err TypeError)).
  assert (One : forall d, In d dims -> exists g0, kprepare mem memb sf sf' k (Z.of_nat m) (nth d series []) (option_map (fun q => nth d q []) query) = Ok g0 /\
    let S := nth d series [] in let Q := nth d (rows_or series query) [] in
    forall H, calc_only m S Q H -> exists g, run g0 H = Ok g /\ (forall c, c + m <= length S -> exists g', kcol mem k g c = Ok (g', col_or_inf (kdist k) m S Q c)) /\
      (forall d, has_diag m S Q d -> exists g', kdiag k g d = Ok (g', diag_or_inf (kdist k) m S Q d))).
  { intros d Hin. destruct (Hd d Hin) as [Hl Hok]. pose proof (@kind_answers mem memb sf sf' k m (nth d series []) (option_map (fun q => nth d q []) query)) as KA. cbn zeta in KA. rewrite QQ in KA. apply KA; auto; [rewrite LS|rewrite LQ]; lia. }
  assert (GS : exists gs, Forall2 (fun d g => kprepare mem memb sf sf' k (Z.of_nat m) (nth d series []) (option_map (fun q => nth d q []) query) = Ok g) dims gs).
  { clear - One. induction dims as [|d dims IH]; [exists []; constructor|]. destruct (One d ltac:(left; reflexivity)) as (g0 & E0 & _). destruct IH as (gs & HF); [intros d' Hd'; apply One; right; exact Hd'|]. exists (g0 :: gs). constructor; assumption. }
  destruct GS as (gs & HF). exists gs.
  assert (At : forall id g0, nth_error gs id = Some g0 -> exists d, nth_error dims id = Some d /\ kprepare mem memb sf sf' k (Z.of_nat m) (nth d series []) (option_map (fun q => nth d q []) query) = Ok g0).
  { clear - HF. induction HF as [|d g dims gs E HF IH]; intros [|id] g0 Hg; try discriminate; cbn in *; [injection Hg as <-; eauto|apply IH, Hg]. }
  exists (fun id g => exists g0 H, nth_error gs id = Some g0 /\ calc_only m (chan_of dims series id) (chan_of dims (rows_or series query) id) H /\ run g0 H = Ok g).
  assert (Hrun : forall g0 H o g, run g0 H = Ok g -> run g0 (H ++ [o]) = gstep (kcol mem k) (@kdiag k) (fun _ _ => Err TypeError) (fun _ _ => Err TypeError) g o).
  { intros g0 H o g E. unfold run, grun in *. rewrite foldM_app, E. cbn [bind foldM]. destruct (gstep _ _ _ _ g o); reflexivity. }
  assert (Hcat : forall S Q H o, calc_only m S Q H -> match o with CCol c => has_col m S Q c | CDiag d => has_diag m S Q d | _ => False end -> calc_only (X := num R) m S Q (H ++ [o])).
  { intros S Q H o C1 C2 o' Ho. apply in_app_iff in Ho. destruct Ho as [Ho|[<-|[]]]; [exact (C1 _ Ho)|exact C2]. }
  split; [|split; [|split]].
  - clear - HF Hd. induction HF as [|d g dims gs E HF IH]; constructor; [split; [apply Hd; left; reflexivity|exact E]|]. apply IH. intros d' Hd'. apply Hd. right. exact Hd'.
  - intros id g Hg. exists g, []. split; [exact Hg|]. split; [intros o []|reflexivity].
  - intros id g c (g0 & H & Hg0 & Hc & Er) Hcw. destruct (At id g0 Hg0) as (d & Ed & Ep). assert (Hin : In d dims) by (eapply nth_error_In; exact Ed). destruct (Hd d Hin) as [Hl _].
    destruct (One d Hin) as (g1 & E1 & A0). assert (g1 = g0) by congruence. subst g1. unfold chan_of in *. rewrite (nth_error_nth _ _ 0 Ed) in *. destruct (A0 H Hc) as (g2 & E2 & B & _). assert (g2 = g) by congruence. subst g2.
    destruct (B c) as (g' & Ec); [rewrite LS by exact Hl; lia|]. exists g'. split; [|split].
    + rewrite Ec. do 2 f_equal. unfold col_or_inf, column_of, matrix_of, chan_of. rewrite (nth_error_nth _ _ 0 Ed), LQ by exact Hl. reflexivity.
    + exists g0, (H ++ [CCol c]). split; [exact Hg0|]. split; [apply Hcat; [exact Hc|split; [rewrite LS by exact Hl|rewrite LQ by exact Hl]; lia]|]. rewrite (Hrun _ _ _ _ Er). cbn [gstep]. rewrite Ec. reflexivity.
    + unfold column_of. rewrite map_length, seq_length. reflexivity.
  - intros id g dg (g0 & H & Hg0 & Hc & Er) Hdg. destruct (At id g0 Hg0) as (d & Ed & Ep). assert (Hin : In d dims) by (eapply nth_error_In; exact Ed). destruct (Hd d Hin) as [Hl _].
    destruct (One d Hin) as (g1 & E1 & A0). assert (g1 = g0) by congruence. subst g1. unfold chan_of in *. rewrite (nth_error_nth _ _ 0 Ed) in *. destruct (A0 H Hc) as (g2 & E2 & _ & B). assert (g2 = g) by congruence. subst g2.
    assert (Hdg' : has_diag m (nth d series []) (nth d (rows_or series query) []) dg).
    { unfold on_matrix in Hdg. exists (Z.to_nat (- dg)), (Z.to_nat dg). rewrite LS, LQ by exact Hl. lia. }
    destruct (B dg Hdg') as (g' & Ec). exists g'. split; [|split].
    + rewrite Ec. do 2 f_equal. unfold diag_or_inf, diagonal_of, matrix_of, chan_of. rewrite (nth_error_nth _ _ 0 Ed), LQ, LS by exact Hl. reflexivity.
    + exists g0, (H ++ [CDiag dg]). split; [exact Hg0|]. split; [apply Hcat; [exact Hc|exact Hdg']|]. rewrite (Hrun _ _ _ _ Er). cbn [gstep]. rewrite Ec. reflexivity.
    + unfold diagonal_of, diag_of. rewrite map_length, seq_length. reflexivity.
Qed.

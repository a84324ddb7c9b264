(** * PFilterReal: filtering non-finite values in front of the distances of real numbers *)
From Coq Require Import QArith Reals Sorted.
From Verif Require Import Np NpFacts SLog PLog MRing PRing MArith SReal SCalc SGen MFilter SFilter PSort PArith PStats PGenRun PFilter.
Set Implicit Arguments.
Open Scope nat_scope.

Notation inf := (@is_not_finite R).
Lemma inf_length m xs : length (inf xs m) = length xs.
Proof. apply map_length. Qed.
Lemma inf_cleaned m xs : cleaned inf m xs = fin (map val xs).
Proof.
  unfold cleaned, is_not_finite. rewrite map_map. induction xs as [|x xs IH]; [reflexivity|]. cbn [map combine fst snd]. rewrite IH. destruct x; reflexivity.
Qed.
Lemma inf_app m a b : inf (a ++ b) m = inf a m ++ inf b m.
Proof. apply map_app. Qed.
Lemma inf_lastn m n l : inf (lastn n l) m = lastn n (inf l m).
Proof. unfold is_not_finite. rewrite lastn_map. reflexivity. Qed.
Lemma spoiled_inf m k l i : spoiled m (inf l k) i = negb (forallb finite (sub m l i)).
Proof.
  unfold spoiled, is_not_finite. rewrite sub_map. induction (sub m l i) as [|x s IH]; [reflexivity|]. cbn [map existsb forallb]. rewrite IH, negb_andb.
  destruct x; reflexivity.
Qed.

Lemma calc_only_cat {X} m (S Q : list X) H1 H2 : calc_only m S Q H1 -> calc_only m S Q H2 -> calc_only m S Q (H1 ++ H2).
Proof. intros A B o [Ho|Ho]%in_app_or; [exact (A o Ho)|exact (B o Ho)]. Qed.

Section Spec.
  Variable (m : nat) (dist : list R -> list R -> R).
  Lemma filtered_col_inf S Q c : c + m <= length S -> m <= length Q ->
    filtered_col m (inf S m) (inf Q m) c (col_dist dist m (map val S) (map val Q) c) = col_or_inf dist m S Q c.
  Proof.
    intros Hc HQ. unfold filtered_col, col_dist, col_or_inf. rewrite map_length. apply nth_error_ext. intro r. rewrite nth_error_mapi, !nth_error_map, nth_error_seq.
    destruct (r <? length Q + 1 - m); [|reflexivity]. cbn [option_map]. rewrite !spoiled_inf, <- negb_andb, !sub_map. unfold dist_or_inf. rewrite andb_comm.
    cbn [Nat.add]. destruct (forallb finite (sub m Q r) && forallb finite (sub m S c)); reflexivity.
  Qed.
  Lemma filtered_diag_inf S Q d : has_diag m S Q d ->
    filtered_diag m (inf S m) (inf Q m) d (diag_dist dist m (map val S) (map val Q) d) = diag_or_inf dist m S Q d.
  Proof.
    intros Hd. unfold filtered_diag, diag_dist, diag_or_inf, diag_of. rewrite !map_length. apply nth_error_ext. intro r. rewrite nth_error_mapi, !nth_error_map, nth_error_seq.
    destruct (r <? Z.to_nat (dlen (length Q + 1 - m) (length S + 1 - m) d)); [|reflexivity]. cbn [option_map Nat.add]. unfold cell_dist, dist_or_inf.
    rewrite !spoiled_inf, <- negb_andb, !sub_map, andb_comm.
    replace (Z.to_nat (Z.max 0 (- d) + Z.of_nat r)) with (Z.to_nat (- d) + r) by lia. replace (Z.to_nat (Z.max 0 d + Z.of_nat r)) with (Z.to_nat d + r) by lia.
    destruct (forallb finite (sub m Q (Z.to_nat (- d) + r)) && forallb finite (sub m S (Z.to_nat d + r))); reflexivity.
  Qed.
  Lemma length_col_dist S Q c : length (col_dist dist m S Q c) = length Q + 1 - m.
  Proof. unfold col_dist. rewrite map_length, seq_length. reflexivity. Qed.
  Lemma length_diag_dist S Q d : length (diag_dist dist m S Q d) = Z.to_nat (dlen (length Q + 1 - m) (length S + 1 - m) d).
  Proof. unfold diag_dist, diag_of. rewrite map_length, seq_length. reflexivity. Qed.
  Lemma has_diag_length {X Y} (S Q : list X) (S' Q' : list Y) d : length S = length S' -> length Q = length Q' -> has_diag m S Q d -> has_diag m S' Q' d.
  Proof. intros L1 L2 (i & j & H1 & H2 & H3). exists i, j. lia. Qed.
  Lemma has_col_length {X Y} (S Q : list X) (S' Q' : list Y) c : length S = length S' -> length Q = length Q' -> has_col m S Q c -> has_col m S' Q' c.
  Proof. unfold has_col. intros. lia. Qed.
End Spec.

(** ** Calls that reach the wrapped generator *)
Definition vals (o : gcall (num R)) : gcall R :=
  match o with CSeries xs => CSeries (map val xs) | CQuery xs => CQuery (map val xs) | CCol c => CCol c | CDiag d => CDiag d end.
Section Kept.
  Variables (self : bool) (m W Wq : nat).
  Definition dropped (H : list (gcall (num R))) (o : gcall (num R)) : bool := match o with CCol c => spoiled m (badS inf m W H) c | _ => false end.
  Fixpoint kept (H0 H : list (gcall (num R))) : list (gcall R) :=
    match H with [] => [] | o :: H' => (if dropped H0 o then [] else [vals o]) ++ kept (H0 ++ [o]) H' end.
  Lemma passed_kept H0 H : passed inf m W H0 H = map finc (kept H0 H).
  Proof.
    revert H0. induction H as [|o H IH]; intro H0; [reflexivity|]. cbn [passed kept]. rewrite map_app, IH. f_equal.
    destruct o; cbn [dropped cleaned_call vals map finc]; rewrite ?inf_cleaned; try reflexivity. destruct (spoiled m (badS inf m W H0) c); reflexivity.
  Qed.
  Definition keep (H : list (gcall (num R))) : list (gcall R) := kept [] H.
  Lemma kept_snoc H0 H o : kept H0 (H ++ [o]) = kept H0 H ++ if dropped (H0 ++ H) o then [] else [vals o].
  Proof.
    revert H0. induction H as [|a H IH]; intro H0; cbn [app kept]; [rewrite !app_nil_r; reflexivity|]. rewrite IH, <- !app_assoc. reflexivity.
  Qed.
  Lemma keep_snoc H o : keep (H ++ [o]) = keep H ++ if dropped H o then [] else [vals o].
  Proof. apply kept_snoc. Qed.

  Lemma keep_split H K1 o' K2 : keep H = K1 ++ o' :: K2 -> exists H1 o H2, H = H1 ++ o :: H2 /\ keep H1 = K1 /\ o' = vals o /\ dropped H1 o = false.
  Proof.
    revert K1 o' K2. induction H as [|o H IH] using rev_ind; intros K1 o' K2 E; [destruct K1; discriminate|]. rewrite keep_snoc in E.
    destruct (dropped H o) eqn:D.
    - rewrite app_nil_r in E. destruct (IH _ _ _ E) as (H1 & o1 & H2 & -> & R1). exists H1, o1, (H2 ++ [o]). rewrite <- app_assoc. auto.
    - destruct K2 as [|k K2] using rev_ind.
      + apply app_inj_tail in E as [E1 E2]. exists H, o, []. auto.
      + clear IHK2. rewrite app_comm_cons, app_assoc in E. apply app_inj_tail in E as [E1 E2].
        destruct (IH _ _ _ E1) as (H1 & o1 & H2 & -> & R1). exists H1, o1, (H2 ++ [o]). rewrite <- app_assoc. auto.
  Qed.
  Lemma keep_s H : s_points (keep H) = map val (s_points H).
  Proof.
    induction H as [|o H IH] using rev_ind; [reflexivity|]. rewrite keep_snoc. destruct (dropped H o) eqn:D.
    - rewrite app_nil_r, s_points_snoc, IH. destruct o; try discriminate D. rewrite app_nil_r. reflexivity.
    - rewrite !s_points_snoc, map_app, IH. destruct o; reflexivity.
  Qed.
  Lemma keep_q H : q_points (keep H) = map val (q_points H).
  Proof.
    induction H as [|o H IH] using rev_ind; [reflexivity|]. rewrite keep_snoc. destruct (dropped H o) eqn:D.
    - rewrite app_nil_r, q_points_snoc, IH. destruct o; try discriminate D. rewrite app_nil_r. reflexivity.
    - rewrite !q_points_snoc, map_app, IH. destruct o; reflexivity.
  Qed.
  Lemma keep_wS H : wS W (keep H) = map val (wS W H).
  Proof. unfold wS. rewrite keep_s, lastn_map. reflexivity. Qed.
  Lemma keep_wQ H : wQ self W Wq (keep H) = map val (wQ self W Wq H).
  Proof. unfold wQ. rewrite keep_wS, keep_q, lastn_map. case self; reflexivity. Qed.
  Lemma bad_s H : s_points (map (marks inf m) H) = inf (s_points H) m.
  Proof. induction H as [|o H IH]; [reflexivity|]. unfold s_points in *. destruct o; cbn [map marks flat_map]; rewrite ?inf_app, IH; reflexivity. Qed.
  Lemma bad_q H : q_points (map (marks inf m) H) = inf (q_points H) m.
  Proof. induction H as [|o H IH]; [reflexivity|]. unfold q_points in *. destruct o; cbn [map marks flat_map]; rewrite ?inf_app, IH; reflexivity. Qed.
  Lemma badS_inf H : badS inf m W H = inf (wS W H) m.
  Proof. unfold badS, wS. rewrite bad_s, inf_lastn. reflexivity. Qed.
  Lemma badQ_inf H : badQ inf m self W Wq H = inf (wQ self W Wq H) m.
  Proof. unfold badQ, wQ, wS. rewrite bad_s, bad_q, <- !inf_lastn. case self; reflexivity. Qed.

  Lemma keep_in_range H : in_range self m W Wq H -> in_range self m W Wq (keep H).
  Proof.
    intros Hr K1 o' K2 E. destruct (@keep_split _ _ _ _ E) as (H1 & o & H2 & -> & <- & -> & _). specialize (Hr H1 o H2 eq_refl).
    rewrite keep_wS, keep_wQ. destruct o; cbn [vals]; auto.
    - eapply has_col_length; [..|exact Hr]; symmetry; apply map_length.
    - eapply has_diag_length; [..|exact Hr]; symmetry; apply map_length.
  Qed.
  Lemma keep_asks H : existsb asks_col H = false -> existsb asks_col (keep H) = false.
  Proof.
    induction H as [|o H IH] using rev_ind; [reflexivity|]. rewrite keep_snoc, !existsb_app. intros [E1 E2]%orb_false_elim. rewrite (IH E1). destruct o; auto. discriminate.
  Qed.
  Lemma keep_asked H : incl (cols_asked W 0 (keep H)) (cols_asked W 0 H) /\ (StronglySorted lt (cols_asked W 0 H) -> StronglySorted lt (cols_asked W 0 (keep H))).
  Proof.
    induction H as [|o H [I1 I2]] using rev_ind; [split; [intros x Hx; exact Hx|auto]|]. rewrite keep_snoc, (cols_asked_app W 0 H [o]). destruct (dropped H o).
    - rewrite app_nil_r. split; [apply incl_appl; exact I1|]. intros S%StronglySorted_app_inv. apply I2. tauto.
    - rewrite cols_asked_app, keep_s, map_length. cbn [Nat.add].
      assert (E : cols_asked W (length (s_points H)) [vals o] = cols_asked W (length (s_points H)) [o]) by (destruct o; reflexivity). rewrite E. split.
      + apply incl_app; [apply incl_appl; exact I1|apply incl_appr, incl_refl].
      + intros S%StronglySorted_app_inv. destruct S as (S1 & S2 & S3). apply I2 in S1. revert S1 S3 I1. generalize (cols_asked W 0 (keep H)) as a.
        generalize (cols_asked W 0 H) as b. intros b a S1 S3 I1. induction a as [|x a IH]; [exact S2|]. inversion S1; subst. cbn [app]. constructor.
        * apply IH; auto. intros y Hy. apply I1. right. exact Hy.
        * rewrite Forall_app. split; [assumption|]. apply Forall_forall. intros y Hy. apply S3; [apply I1; left; reflexivity|exact Hy].
  Qed.
  Lemma keep_trusted H : trusted self W H -> trusted self W (keep H).
  Proof.
    intros [T|[T|T]]; [left; exact T|right; left|right; right; apply keep_asked; exact T].
    intros K1 xs K2 E. destruct (@keep_split _ _ _ _ E) as (H1 & o & H2 & -> & <- & Eo & _). destruct o as [xs0| | |]; try discriminate. inversion Eo; subst xs.
    rewrite keep_wS, !map_length. destruct (T H1 xs0 H2 eq_refl) as [T1|T1]; [left; apply keep_asks; exact T1|right; exact T1].
  Qed.
End Kept.

(** ** Generators of real distances *)
Section Wrap.
  Variable G : Type.
  Variable g_col : G -> nat -> res (G * list (num R)).
  Variable g_diag : G -> Z -> res (G * list (num R)).
  Variable g_s g_q : G -> list (num R) -> res G.
  Variables (dist : list R -> list R -> R) (good : list R -> list R -> Prop).
  Variable m : nat.
  Hypothesis Hm : 0 < m.

  (** *** Fixed data *)
  Section Fixed.
    Variables (S : list (num R)) (q : option (list (num R))).
    Let Q := query_or S q.
    Hypothesis HS : m <= length S.
    Hypothesis HQ : m <= length Q.
    Variable g0 : G.
    (** the wrapped generator *)
    Hypothesis inner : forall K, calc_only m (map val S) (map val Q) K -> exists g, grun g_col g_diag g_s g_q g0 (map finc K) = Ok g /\
      (forall d, has_diag m (map val S) (map val Q) d -> g_diag g d = Ok (g, diag_dist dist m (map val S) (map val Q) d)) /\
      (forall c, c + m <= length S -> exists g', g_col g c = Ok (g', col_dist dist m (map val S) (map val Q) c)).

    Definition fb_run (a : fbatch G -> list (num R) -> res (fbatch G)) := grun (fb_calc_column g_col) (fb_calc_diagonal g_diag) a a.
    Lemma fixed_run a f0 H : fb_inv m (inf S m) (inf Q m) f0 -> fb_g f0 = g0 -> calc_only m S Q H ->
      exists f K, fb_run a f0 H = Ok f /\ fb_inv m (inf S m) (inf Q m) f /\ calc_only m (map val S) (map val Q) K /\
        grun g_col g_diag g_s g_q g0 (map finc K) = Ok (fb_g f).
    Proof.
      intros I0 E0. induction H as [|o H IH] using rev_ind; intro Hc.
      - exists f0, []. rewrite E0. split; [reflexivity|]. split; [exact I0|]. split; [intros o []|reflexivity].
      - apply calc_only_app in Hc as [Hc Ho]. destruct (IH Hc) as (f & K & Ef & If & CK & EK). specialize (Ho o (or_introl eq_refl)).
        destruct (inner CK) as (g & Eg & D & C). assert (g = fb_g f) by congruence. subst g.
        unfold fb_run, grun in *. rewrite foldM_app, Ef. cbn [bind foldM].
        destruct o as [|? | c | d]; try contradiction; cbn [gstep].
        + destruct Ho as [Hc1 _]. destruct (spoiled m (inf S m) c) eqn:Es.
          * rewrite (fb_col_spoiled g_col Hm c If) by (rewrite ?inf_length; assumption). cbn [bind fst]. exists f, K. auto.
          * destruct (C c Hc1) as (g' & Ec). destruct (fb_col g_col Hm c If ltac:(rewrite inf_length; exact Hc1) Es Ec) as (f' & Ef' & If' & Eg').
            { rewrite length_col_dist, map_length, inf_length. reflexivity. }
            rewrite Ef'. cbn [bind fst]. exists f', (K ++ [CCol c]). split; [reflexivity|]. split; [exact If'|]. split.
            -- apply calc_only_cat; [exact CK|]. intros o [<-|[]]. split; rewrite map_length; assumption.
            -- rewrite map_app, foldM_app, Eg. cbn [bind map finc foldM gstep]. rewrite Ec. cbn [bind fst]. congruence.
        + destruct (@fb_diag R G g_diag m Hm (inf S m) (inf Q m) f d (fb_g f) _ If ltac:(eapply has_diag_length; [..|exact Ho]; rewrite inf_length; reflexivity)
            (D d ltac:(eapply has_diag_length; [..|exact Ho]; rewrite map_length; reflexivity))) as (f' & Ef' & If' & Eg').
          { rewrite length_diag_dist, !map_length, !inf_length. reflexivity. }
          rewrite Ef'. cbn [bind fst]. exists f', K. split; [reflexivity|]. split; [exact If'|]. split; [exact CK|]. congruence.
    Qed.
    Lemma fixed_answers f0 a H : fb_inv m (inf S m) (inf Q m) f0 -> fb_g f0 = g0 -> calc_only m S Q H -> exists f, fb_run a f0 H = Ok f /\
      (forall d, has_diag m S Q d -> exists f', fb_calc_diagonal g_diag f d = Ok (f', diag_or_inf dist m S Q d)) /\
      (forall c, c + m <= length S -> exists f', fb_calc_column g_col f c = Ok (f', col_or_inf dist m S Q c)).
    Proof.
      intros I0 E0 Hc. destruct (fixed_run a I0 E0 Hc) as (f & K & Ef & If & CK & EK). exists f. split; [exact Ef|].
      destruct (inner CK) as (g & Eg & D & C). assert (g = fb_g f) by congruence. subst g. split.
      - intros d Hd. destruct (@fb_diag R G g_diag m Hm (inf S m) (inf Q m) f d (fb_g f) _ If ltac:(eapply has_diag_length; [..|exact Hd]; rewrite inf_length; reflexivity)
            (D d ltac:(eapply has_diag_length; [..|exact Hd]; rewrite map_length; reflexivity))) as (f' & Ef' & _).
        { rewrite length_diag_dist, !map_length, !inf_length. reflexivity. }
        rewrite filtered_diag_inf in Ef' by exact Hd. eauto.
      - intros c Hc1. rewrite <- filtered_col_inf by assumption. destruct (spoiled m (inf S m) c) eqn:Es.
        + exists f. rewrite (fb_col_spoiled g_col Hm c If) by (rewrite ?inf_length; assumption). rewrite col_all by exact Es. rewrite length_col_dist, map_length, inf_length. reflexivity.
        + destruct (C c Hc1) as (g' & Ec). destruct (fb_col g_col Hm c If ltac:(rewrite inf_length; exact Hc1) Es Ec) as (f' & Ef' & _).
          { rewrite length_col_dist, map_length, inf_length. reflexivity. }
          eauto.
    Qed.
  End Fixed.

  (** *** Streaming *)
  Section Streaming.
    Variables (self : bool) (W Wq : nat).
    Hypothesis HW : m <= W.
    Hypothesis HWq : self = false -> m <= Wq.
    Variable g0 : G.
    Let run := grun g_col g_diag g_s g_q.
    (** the windows are fit for the columns that are asked for *)
    Definition fit (K : list (gcall R)) : Prop := forall K1 c K2, K = K1 ++ CCol c :: K2 -> good (wS W K1) (wQ self W Wq K1).
    Hypothesis inner : forall K, in_range self m W Wq K -> trusted self W K -> fit K -> exists g, run g0 (map finc K) = Ok g /\
      (forall d, has_diag m (wS W K) (wQ self W Wq K) d -> g_diag g d = Ok (g, diag_dist dist m (wS W K) (wQ self W Wq K) d)) /\
      (forall c, has_col m (wS W K) (wQ self W Wq K) c -> trusted self W (K ++ [CCol c]) -> fit (K ++ [CCol c]) ->
         exists g', g_col g c = Ok (g', col_dist dist m (wS W K) (wQ self W Wq K) c)).
    Definition fit_values (H : list (gcall (num R))) : Prop :=
      forall H1 c H2, H = H1 ++ CCol c :: H2 -> good (map val (wS W H1)) (map val (wQ self W Wq H1)).
    Lemma keep_fit H : fit_values H -> fit (keep m W H).
    Proof.
      intros F K1 c K2 E. destruct (@keep_split _ _ _ _ _ _ E) as (H1 & o & H2 & -> & <- & Eo & _). destruct o as [| |c'|]; try discriminate.
      rewrite keep_wS, keep_wQ. exact (F H1 c' H2 eq_refl).
    Qed.
    Lemma fit_prefix H1 H2 : fit_values (H1 ++ H2) -> fit_values H1.
    Proof. intros F A c B ->. apply (F A c (B ++ H2)). rewrite <- app_assoc. reflexivity. Qed.
    Lemma in_range_prefix {X} (H1 H2 : list (gcall X)) : in_range self m W Wq (H1 ++ H2) -> in_range self m W Wq H1.
    Proof. intros F A o B ->. apply (F A o (B ++ H2)). rewrite <- app_assoc. reflexivity. Qed.

    Let frun := fs_run g_col g_diag g_s g_q inf.
    Let binv H := @fs_inv G m self W Wq (badS inf m W H) (badQ inf m self W Wq H).
    Lemma length_badS H : length (badS inf m W H) = length (wS W H).
    Proof. rewrite badS_inf. apply inf_length. Qed.
    Lemma length_badQ H : length (badQ inf m self W Wq H) = length (wQ self W Wq H).
    Proof. rewrite badQ_inf. apply inf_length. Qed.

    Lemma inner_state f0 H f : binv [] f0 -> fs_g f0 = g0 -> in_range self m W Wq H -> trusted self W H -> fit_values H -> chunked H -> frun f0 H = Ok f ->
      binv H f /\ 
      (forall d, has_diag m (wS W H) (wQ self W Wq H) d -> g_diag (fs_g f) d = Ok (fs_g f, diag_dist dist m (map val (wS W H)) (map val (wQ self W Wq H)) d)) /\
      (forall c, has_col m (wS W H) (wQ self W Wq H) c -> trusted self W (H ++ [CCol c]) -> fit_values (H ++ [CCol c]) -> spoiled m (badS inf m W H) c = false ->
         exists g', g_col (fs_g f) c = Ok (g', col_dist dist m (map val (wS W H)) (map val (wQ self W Wq H)) c)).
    Proof.
      intros I0 E0 Hr Ht Hf Hc E.
      assert (P : Forall (proper_call inf m) H).
      { apply Forall_forall. intros o Ho. specialize (Hc o Ho). destruct o; cbn; auto using inf_length. }
      destruct (@fs_run_inv R NumR G g_col g_diag g_s g_q inf m Hm self W Wq HW HWq [] f0 H f I0 P E) as [I R1]. cbn [app] in I. split; [exact I|].
      rewrite passed_kept, E0 in R1. fold (keep m W H) in R1.
      destruct (inner (keep_in_range Hr) (keep_trusted m Ht) (keep_fit Hf)) as (g & Eg & D & C). unfold inner_run, run in *. assert (g = fs_g f) by congruence. subst g.
      rewrite keep_wS, keep_wQ in D, C. split.
      - intros d Hd. apply D. eapply has_diag_length; [..|exact Hd]; rewrite map_length; reflexivity.
      - intros c Hcol Htc Hfc Es. apply C.
        + eapply has_col_length; [..|exact Hcol]; rewrite map_length; reflexivity.
        + apply keep_trusted with (m := m) in Htc. rewrite keep_snoc in Htc. cbn [dropped] in Htc. rewrite Es in Htc. exact Htc.
        + apply keep_fit in Hfc. rewrite keep_snoc in Hfc. cbn [dropped] in Hfc. rewrite Es in Hfc. exact Hfc.
    Qed.
    Lemma stream_col H f c : binv H f -> has_col m (wS W H) (wQ self W Wq H) c ->
      (spoiled m (badS inf m W H) c = false -> exists g', g_col (fs_g f) c = Ok (g', col_dist dist m (map val (wS W H)) (map val (wQ self W Wq H)) c)) ->
      exists f', fs_calc_column g_col f c = Ok (f', col_or_inf dist m (wS W H) (wQ self W Wq H) c).
    Proof.
      intros I [Hc1 Hc2] C. rewrite <- filtered_col_inf by assumption. rewrite <- badS_inf, <- badQ_inf.
      destruct (spoiled m (badS inf m W H) c) eqn:Es.
      - exists f. rewrite (@fs_col_spoiled R G g_col m Hm self W Wq _ _ f c I) by (rewrite ?length_badS; assumption). rewrite col_all by exact Es. rewrite length_col_dist, map_length, length_badQ. reflexivity.
      - destruct (C eq_refl) as (g' & Ec). exists (fs_with f g'). eapply fs_col; try eassumption; [rewrite length_badS; exact Hc1|].
        rewrite length_col_dist, map_length, length_badQ. reflexivity.
    Qed.
    Lemma stream_diag H f d : binv H f -> has_diag m (wS W H) (wQ self W Wq H) d ->
      g_diag (fs_g f) d = Ok (fs_g f, diag_dist dist m (map val (wS W H)) (map val (wQ self W Wq H)) d) ->
      exists f', fs_calc_diagonal g_diag f d = Ok (f', diag_or_inf dist m (wS W H) (wQ self W Wq H) d).
    Proof.
      intros I Hd D. rewrite <- filtered_diag_inf by assumption. rewrite <- badS_inf, <- badQ_inf. exists (fs_with f (fs_g f)). eapply fs_diag; try eassumption.
      - eapply has_diag_length; [..|exact Hd]; rewrite ?length_badS, ?length_badQ; reflexivity.
      - rewrite length_diag_dist, !map_length, length_badS, length_badQ. reflexivity.
    Qed.
    Lemma stream_run f0 H : binv [] f0 -> fs_g f0 = g0 -> in_range self m W Wq H -> trusted self W H -> fit_values H -> chunked H -> exists f, frun f0 H = Ok f.
    Proof.
      intros I0 E0. induction H as [|o H IH] using rev_ind; intros Hr Ht Hf Hc; [exists f0; reflexivity|].
      pose proof (@in_range_prefix _ H [o] Hr) as Hr1. pose proof (trusted_prefix _ _ Ht) as Ht1. pose proof (@fit_prefix H [o] Hf) as Hf1.
      assert (Hc1 : chunked H) by (intros o' Ho; apply Hc; apply in_or_app; auto). specialize (Hc o ltac:(apply in_or_app; right; left; reflexivity)).
      destruct (IH Hr1 Ht1 Hf1 Hc1) as (f & Ef). destruct (inner_state I0 E0 Hr1 Ht1 Hf1 Hc1 Ef) as (I & D & C).
      unfold frun, fs_run, grun in *. rewrite foldM_app, Ef. cbn [bind foldM]. specialize (Hr H o [] eq_refl) as Ho.
      assert (P : Forall (proper_call inf m) H).
      { apply Forall_forall. intros o' Ho'. specialize (Hc1 o' Ho'). destruct o'; cbn; auto using inf_length. }
      destruct (@fs_run_inv R NumR G g_col g_diag g_s g_q inf m Hm self W Wq HW HWq [] f0 H f I0 P Ef) as [_ R1].
      rewrite passed_kept, E0 in R1. fold (keep m W H) in R1. unfold inner_run in R1. fold run in R1.
      assert (N : dropped m W H o = false -> exists g', gstep g_col g_diag g_s g_q (fs_g f) (finc (vals o)) = Ok g').
      { intro Dr. destruct (inner (keep_in_range Hr) (keep_trusted m Ht) (keep_fit Hf)) as (g & Eg & _). rewrite keep_snoc, Dr, map_app in Eg.
        unfold run, grun in Eg, R1. rewrite foldM_app, R1 in Eg. cbn [bind map foldM] in Eg.
        destruct (gstep g_col g_diag g_s g_q (fs_g f) (finc (vals o))) as [g'|]; [eauto|discriminate]. }
      destruct o; cbn [gstep dropped vals finc] in *.
      - destruct (N eq_refl) as (g' & Eg). destruct (@fs_series R NumR G g_s inf m Hm self W Wq HW _ _ f xs I Hc (inf_length m xs)) as [(e & Ee & _)|(f' & _ & E' & _)].
        + rewrite inf_cleaned in Ee. congruence.
        + rewrite E'. cbn [bind]. eauto.
      - destruct (N eq_refl) as (g' & Eg). destruct (@fs_query R NumR G g_q inf m Hm self W Wq HWq _ _ f xs Ho I Hc (inf_length m xs)) as [(e & Ee & _)|(f' & _ & E' & _)].
        + rewrite inf_cleaned in Ee. congruence.
        + rewrite E'. cbn [bind]. eauto.
      - destruct (stream_col I Ho) as (f' & E').
        { intro Es. apply C; auto. }
        rewrite E'. cbn [bind fst]. eauto.
      - destruct (stream_diag I Ho (D d Ho)) as (f' & E'). rewrite E'. cbn [bind fst]. eauto.
    Qed.
    Lemma stream_answers f0 H : binv [] f0 -> fs_g f0 = g0 -> in_range self m W Wq H -> trusted self W H -> fit_values H -> chunked H -> exists f, frun f0 H = Ok f /\
      (forall d, has_diag m (wS W H) (wQ self W Wq H) d -> exists f', fs_calc_diagonal g_diag f d = Ok (f', diag_or_inf dist m (wS W H) (wQ self W Wq H) d)) /\
      (forall c, has_col m (wS W H) (wQ self W Wq H) c -> trusted self W (H ++ [CCol c]) -> fit_values (H ++ [CCol c]) ->
         exists f', fs_calc_column g_col f c = Ok (f', col_or_inf dist m (wS W H) (wQ self W Wq H) c)).
    Proof.
      intros I0 E0 Hr Ht Hf Hc. destruct (stream_run I0 E0 Hr Ht Hf Hc) as (f & Ef). exists f. split; [exact Ef|].
      destruct (inner_state I0 E0 Hr Ht Hf Hc Ef) as (I & D & C). split.
      - intros d Hd. apply stream_diag; auto.
      - intros c Hcol Htc Hfc. apply stream_col; auto.
    Qed.
  End Streaming.
End Wrap.

From Verif Require Import Np NpFacts MRing SRing.
From Coq Require Import QArith Qround.
Set Implicit Arguments.
Open Scope nat_scope.

Section Ring.
  Variable T : Type.
  Implicit Types (b : rb T) (d : list T).

  Record rb_ok b : Prop := {
    ok_cap : rb_start b + rb_max b <= length (rb_buf b);
    ok_len : rb_len b <= rb_max b;
    ok_start : rb_len b < rb_max b -> rb_start b = 0;
    ok_vlo : rb_vlo b = rb_start b;
    ok_vhi : rb_vhi b = rb_start b + rb_len b
  }.

  Lemma length_rb_view b : rb_ok b -> length (rb_view b) = rb_len b.
  Proof.
    intros [H1 H2 H3 H4 H5]. unfold rb_view. rewrite length_lslice, H4, H5. lia.
  Qed.

  Lemma nth_rb_view b i : rb_ok b ->
    nth_error (rb_view b) i = if i <? rb_len b then nth_error (rb_buf b) (rb_start b + i) else None.
  Proof.
    intros [H1 H2 H3 H4 H5]. unfold rb_view. rewrite nth_error_lslice, H4, H5.
    replace (rb_start b + rb_len b - rb_start b) with (rb_len b) by lia. reflexivity.
  Qed.

  Ltac nat_ifs := repeat match goal with
    | |- context [Nat.ltb ?a ?b] => destruct (Nat.ltb_spec a b); try lia
    end.

  Lemma rb_push_full_spec b d :
    rb_ok b -> 0 < length d -> 0 < rb_max b -> rb_len b = rb_max b ->
    ~ (rb_max b < length d /\ rb_start b + rb_max b + length d <= length (rb_buf b)) ->
    exists b', rb_push_full b d = Ok (b', length d) /\ rb_ok b' /\
      rb_view b' = lastn (rb_max b) (rb_view b ++ d) /\
      length (rb_buf b') = length (rb_buf b) /\ rb_max b' = rb_max b /\ rb_len b' = rb_max b.
  Proof.
    intros Ho Hd Hn Hl Hc. pose proof Ho as [H1 H2 H3 H4 H5].
    unfold rb_push_full.
    destruct (Nat.leb_spec (rb_start b + rb_max b + length d) (length (rb_buf b))) as [Hfit|Hfit].
    - (* slide *)
      set (s := rb_start b + length d).
      assert (Lv : length (lslice (rb_buf b) s (s + rb_max b)) = rb_max b).
      { rewrite length_lslice. unfold s. lia. }
      rewrite Lv. assert (Hdn : length d <= rb_max b) by lia.
      assert (En : norm_idx (rb_max b) (- Z.of_nat (length d)) = rb_max b - length d).
      { unfold norm_idx. destruct (Z.ltb_spec (- Z.of_nat (length d)) 0); lia. }
      rewrite En, set_slice_ok; [|lia|lia|lia]. simpl.
      eexists; split; [reflexivity|].
      assert (Lw : length (splice (lslice (rb_buf b) s (s + rb_max b)) (rb_max b - length d) d) = rb_max b).
      { rewrite length_splice; lia. }
      assert (Lb : length (splice (rb_buf b) s
        (splice (lslice (rb_buf b) s (s + rb_max b)) (rb_max b - length d) d)) = length (rb_buf b)).
      { rewrite length_splice; [reflexivity|]. rewrite Lw. unfold s; lia. }
      match goal with |- rb_ok ?x /\ _ => assert (Ho' : rb_ok x) end.
      { constructor; simpl; rewrite ?Lb; unfold s in *; try lia. }
      split; [exact Ho'|]. simpl. split; [|split; [exact Lb|auto]].
      apply nth_error_ext; intro i. rewrite nth_rb_view by exact Ho'. simpl.
      rewrite nth_error_lastn, app_length, nth_error_app, nth_rb_view, length_rb_view by exact Ho.
      rewrite Hl.
      rewrite nth_error_splice by (unfold s; lia). rewrite Lw.
      rewrite nth_error_splice by lia. rewrite nth_error_lslice.
      unfold s. nat_ifs; try (f_equal; lia).
      symmetry; apply nth_error_None; lia.
    - destruct (Nat.ltb_spec (length d) (rb_max b)) as [Hdn|Hdn].
      + assert (L1 : length (lslice (rb_buf b) (rb_start b + length d) (rb_start b + rb_max b)) = rb_max b - length d).
        { rewrite length_lslice. lia. }
        rewrite set_slice_ok; [|lia|lia|lia]. simpl bind.
        rewrite set_slice_ok; [|lia|rewrite length_splice; lia|lia]. simpl bind.
        eexists; split; [reflexivity|].
        set (buf1 := splice (rb_buf b) 0 (lslice (rb_buf b) (rb_start b + length d) (rb_start b + rb_max b))).
        assert (Lb1 : length buf1 = length (rb_buf b)) by (unfold buf1; rewrite length_splice; lia).
        assert (Lb : length (splice buf1 (rb_max b - length d) d) = length (rb_buf b)).
        { rewrite length_splice; lia. }
        match goal with |- rb_ok ?x /\ _ => assert (Ho' : rb_ok x) end.
        { constructor; simpl; rewrite ?Lb; lia. }
        split; [exact Ho'|]. simpl. split; [|split; [exact Lb|auto]].
        apply nth_error_ext; intro i. rewrite nth_rb_view by exact Ho'. simpl.
        rewrite nth_error_lastn, app_length, nth_error_app, nth_rb_view, length_rb_view by exact Ho.
        rewrite Hl. rewrite nth_error_splice by lia. unfold buf1.
        rewrite nth_error_splice by lia. rewrite L1, nth_error_lslice.
        nat_ifs; try (f_equal; lia). symmetry; apply nth_error_None; lia.
      + assert (E : slice_from d (- Z.of_nat (rb_max b)) = lastn (rb_max b) d).
        { apply slice_from_neg; lia. }
        rewrite E. assert (Ll : length (lastn (rb_max b) d) = rb_max b) by (rewrite length_lastn; lia).
        rewrite set_slice_ok; [|lia|lia|lia]. simpl bind.
        eexists; split; [reflexivity|].
        assert (Lb : length (splice (rb_buf b) 0 (lastn (rb_max b) d)) = length (rb_buf b)).
        { rewrite length_splice; lia. }
        match goal with |- rb_ok ?x /\ _ => assert (Ho' : rb_ok x) end.
        { constructor; simpl; rewrite ?Lb; lia. }
        split; [exact Ho'|]. simpl. split; [|split; [exact Lb|auto]].
        apply nth_error_ext; intro i. rewrite nth_rb_view by exact Ho'. simpl.
        rewrite nth_error_lastn, app_length, nth_error_app, nth_rb_view, length_rb_view by exact Ho.
        rewrite Hl. rewrite nth_error_splice by lia. rewrite nth_error_lastn, Ll.
        nat_ifs; try (f_equal; lia). symmetry; apply nth_error_None; lia.
  Qed.

  (** Too much data left after filling, yet fitting behind the window. *)
  Definition rb_rejects b d : Prop :=
    rb_max b < rb_len b + length d - rb_max b /\
    rb_start b + rb_max b + (rb_len b + length d - rb_max b) <= length (rb_buf b).

  Lemma rb_push_spec0 b d :
    rb_ok b -> 0 < rb_max b -> ~ rb_rejects b d ->
    exists b', rb_push b d = Ok (b', length (rb_view b) + length d - length (rb_view b')) /\ rb_ok b' /\
      rb_view b' = lastn (rb_max b) (rb_view b ++ d) /\
      length (rb_buf b') = length (rb_buf b) /\ rb_max b' = rb_max b.
  Proof.
    intros Ho Hn Hc. unfold rb_rejects in Hc. pose proof Ho as [H1 H2 H3 H4 H5]. unfold rb_push.
    pose proof (length_rb_view Ho) as Lv.
    destruct (Nat.eqb_spec (length d) 0) as [Hd|Hd].
    { exists b. split; [repeat f_equal; lia|]. split; [exact Ho|].
      assert (d = []) as -> by (destruct d; [reflexivity|discriminate]).
      rewrite app_nil_r, lastn_all by lia. auto. }
    destruct (Nat.ltb_spec (rb_len b) (rb_max b)) as [Hf|Hf].
    - set (delta := Nat.min (length d) (rb_max b - rb_len b)).
      assert (Lf : length (firstn delta d) = delta) by (rewrite firstn_length; lia).
      specialize (H3 Hf).
      rewrite set_slice_ok; [|lia|lia|lia]. simpl bind.
      set (buf1 := splice (rb_buf b) (rb_len b) (firstn delta d)).
      assert (Lb : length buf1 = length (rb_buf b)) by (unfold buf1; rewrite length_splice; lia).
      set (b1 := mkRb buf1 (rb_start b) (rb_max b) (rb_len b + delta) 0
                      (Nat.min (rb_len b + delta) (length buf1))).
      assert (Ho1 : rb_ok b1) by (constructor; simpl; rewrite ?Lb; lia).
      assert (V1 : rb_view b1 = rb_view b ++ firstn delta d).
      { apply nth_error_ext; intro i. rewrite nth_error_app, !nth_rb_view by assumption. simpl.
        rewrite Lv, H3. unfold buf1. rewrite nth_error_splice by lia. rewrite Lf.
        simpl. nat_ifs; try (f_equal; lia); auto.
        symmetry. apply nth_error_None. rewrite firstn_length; lia. }
      destruct (Nat.eqb_spec (length d) delta) as [He|He].
      + exists b1. assert (firstn delta d = d) as Ed by (rewrite <- He; apply firstn_all).
        rewrite Ed in V1. split; [|split; [exact Ho1|split; [|split; [exact Lb|reflexivity]]]].
        * do 2 f_equal. rewrite V1, app_length. lia.
        * rewrite lastn_all; [exact V1|]. rewrite app_length; lia.
      + assert (Ls : length (skipn delta d) = length d - delta) by apply skipn_length.
        destruct (@rb_push_full_spec b1 (skipn delta d)) as (b' & E & Ho' & V' & C' & M' & L').
        * exact Ho1.
        * lia.
        * exact Hn.
        * simpl; lia.
        * simpl; lia.
        * simpl in *. exists b'. rewrite E, Ls.
          assert (V2 : rb_view b' = lastn (rb_max b) (rb_view b ++ d)).
          { rewrite V', V1, <- app_assoc, firstn_skipn. reflexivity. }
          split; [|split; [exact Ho'|split; [exact V2|split; [lia|exact M']]]].
          do 2 f_equal. rewrite V2, length_lastn, app_length. lia.
    - destruct (@rb_push_full_spec b d) as (b' & E & Ho' & V' & C' & M' & L'); auto; try lia.
      exists b'. rewrite E. split; [|split; [exact Ho'|split; [exact V'|split; [lia|exact M']]]].
      do 2 f_equal. rewrite V', length_lastn, app_length. lia.
  Qed.

  Lemma rb_push_spec b d :
    rb_ok b -> 0 < rb_max b ->
    length d <= rb_max b \/ length (rb_buf b) <= 2 * rb_max b ->
    exists b', rb_push b d = Ok (b', length (rb_view b) + length d - length (rb_view b')) /\ rb_ok b' /\
      rb_view b' = lastn (rb_max b) (rb_view b ++ d) /\
      length (rb_buf b') = length (rb_buf b) /\ rb_max b' = rb_max b.
  Proof.
    intros Ho Hn Hc. pose proof Ho as [H1 H2 H3 H4 H5]. apply rb_push_spec0; auto.
    unfold rb_rejects. lia.
  Qed.

  Lemma rb_alloc_spec mem n sf : (1 <= sf)%Q ->
    exists b, rb_alloc mem n sf = @Ok (rb T) b /\ rb_ok b /\ rb_view b = [] /\ rb_max b = n /\
      Z.of_nat (length (rb_buf b)) = Qceiling (sf * inject_Z (Z.of_nat n)) /\
      n <= length (rb_buf b) /\ ((sf <= 2)%Q -> length (rb_buf b) <= 2 * n).
  Proof.
    intros Hs. unfold rb_alloc.
    assert (B1 : (Z.of_nat n <= Qceiling (sf * inject_Z (Z.of_nat n)))%Z).
    { rewrite <- (Qceiling_Z (Z.of_nat n)) at 1. apply Qceiling_resp_le.
      rewrite <- (Qmult_1_l (inject_Z (Z.of_nat n))) at 1. apply Qmult_le_compat_r; [exact Hs|].
      change 0%Q with (inject_Z 0). rewrite <- Zle_Qle. lia. }
    destruct (Z.ltb_spec (Qceiling (sf * inject_Z (Z.of_nat n))) 0); [lia|].
    eexists; split; [reflexivity|]. rewrite ?map_length. simpl. rewrite map_length, seq_length.
    split; [|split; [reflexivity|split; [reflexivity|split; [lia|split; [lia|]]]]].
    - constructor; simpl; rewrite ?map_length, ?seq_length; lia.
    - intros H2. assert (B2 : (Qceiling (sf * inject_Z (Z.of_nat n)) <= 2 * Z.of_nat n)%Z); [|lia].
      rewrite <- (Qceiling_Z (2 * Z.of_nat n)). apply Qceiling_resp_le.
      rewrite inject_Z_mult. apply Qmult_le_compat_r; [exact H2|].
      change 0%Q with (inject_Z 0). rewrite <- Zle_Qle. lia.
  Qed.

  Lemma rb_set_view_spec b w : rb_ok b -> length w = rb_len b ->
    rb_ok (rb_set_view b w) /\ rb_view (rb_set_view b w) = w /\ rb_max (rb_set_view b w) = rb_max b /\
    length (rb_buf (rb_set_view b w)) = length (rb_buf b).
  Proof.
    intros Ho Hw. pose proof Ho as [H1 H2 H3 H4 H5].
    assert (Lb : length (splice (rb_buf b) (rb_vlo b) w) = length (rb_buf b)) by (apply length_splice; lia).
    assert (Ho' : rb_ok (rb_set_view b w)) by (constructor; simpl; rewrite ?Lb; auto).
    split; [exact Ho'|]. split; [|split; [reflexivity|exact Lb]].
    apply nth_error_ext; intro i. rewrite nth_rb_view by exact Ho'. simpl.
    rewrite H4. rewrite nth_error_splice by lia.
    destruct (Nat.ltb_spec i (rb_len b)).
    - destruct (Nat.ltb_spec (rb_start b + i) (rb_start b)); [lia|].
      destruct (Nat.ltb_spec (rb_start b + i) (rb_start b + length w)); [|lia].
      f_equal; lia.
    - symmetry; apply nth_error_None; lia.
  Qed.

  (** Exactly which pushes are rejected. *)
  Lemma rb_rejects_err b d : rb_ok b -> 0 < rb_max b -> rb_rejects b d -> rb_push b d = Err ValueError.
  Proof.
    intros Ho Hn [Hgt Hfit]. set (dl := rb_len b + length d - rb_max b) in *.
    pose proof Ho as [H1 H2 H3 H4 H5].
    assert (Err1 : forall b1 d1, rb_max b1 = rb_max b -> rb_start b1 = rb_start b ->
       length (rb_buf b1) = length (rb_buf b) -> length d1 = dl ->
       rb_push_full b1 d1 = Err ValueError).
    { intros b1 d1 M1 S1 C1 L1. unfold rb_push_full. rewrite M1, S1, C1, L1.
      destruct (Nat.leb_spec (rb_start b + rb_max b + dl) (length (rb_buf b))); [|lia].
      rewrite length_lslice, C1.
      replace (Nat.min (rb_start b + dl + rb_max b) (length (rb_buf b)) - (rb_start b + dl))
        with (rb_max b) by lia.
      replace (norm_idx (rb_max b) (- Z.of_nat dl)) with 0
        by (unfold norm_idx; destruct (Z.ltb_spec (- Z.of_nat dl) 0); lia).
      unfold set_slice. rewrite length_lslice, C1.
      replace (Nat.min (rb_max b) (Nat.min (rb_start b + dl + rb_max b) (length (rb_buf b)) - (rb_start b + dl)))
        with (rb_max b) by lia.
      rewrite Nat.sub_0_r, L1. destruct (Nat.eqb_spec dl (rb_max b)); [lia|].
      destruct d1 as [|x [|y d1]]; simpl in *; try reflexivity; lia. }
    unfold rb_push. destruct (Nat.eqb_spec (length d) 0); [lia|].
    destruct (Nat.ltb_spec (rb_len b) (rb_max b)) as [Hf|Hf].
    - set (delta := Nat.min (length d) (rb_max b - rb_len b)).
      assert (Lf : length (firstn delta d) = delta) by (rewrite firstn_length; lia).
      rewrite set_slice_ok; [|lia|lia|lia]. simpl bind.
      destruct (Nat.eqb_spec (length d) delta); [lia|].
      apply Err1; simpl; auto.
      + rewrite length_splice; lia.
      + rewrite skipn_length; lia.
    - apply Err1; auto. lia.
  Qed.

  Lemma rb_push_cases b d : rb_ok b -> 0 < rb_max b ->
    (rb_rejects b d /\ rb_push b d = Err ValueError) \/
    (~ rb_rejects b d /\
     exists b', rb_push b d = Ok (b', length (rb_view b) + length d - length (rb_view b')) /\ rb_ok b' /\
      rb_view b' = lastn (rb_max b) (rb_view b ++ d) /\
      length (rb_buf b') = length (rb_buf b) /\ rb_max b' = rb_max b).
  Proof.
    intros Ho Hn.
    assert (D : {rb_rejects b d} + {~ rb_rejects b d}).
    { unfold rb_rejects.
      destruct (lt_dec (rb_max b) (rb_len b + length d - rb_max b)) as [A|A];
      destruct (le_dec (rb_start b + rb_max b + (rb_len b + length d - rb_max b)) (length (rb_buf b))) as [B|B];
      (left; tauto) || (right; tauto). }
    destruct D as [D|D].
    - left. split; [exact D|]. apply rb_rejects_err; assumption.
    - right. split; [exact D|]. apply rb_push_spec0; assumption.
  Qed.

  (** ** Refinement to the stream *)
  Definition rb_rel (n : nat) (s : list T) b : Prop :=
    rb_ok b /\ rb_max b = n /\ 0 < n /\ rb_view b = lastn n s.

  Lemma rb_rel_len n s b : rb_rel n s b -> rb_len b = Nat.min n (length s).
  Proof. intros (Ho & _ & _ & V). rewrite <- (length_rb_view Ho), V. apply length_lastn. Qed.

  Lemma update_length (s : list T) p x : length (update s p x) = length s.
  Proof.
    unfold update. rewrite app_length, firstn_length.
    assert (L := skipn_length p s). destruct (skipn p s); simpl in *; lia.
  Qed.

  Lemma nth_update (s : list T) p x i : p < length s ->
    nth_error (update s p x) i = if i =? p then Some x else nth_error s i.
  Proof.
    intro Hp. unfold update. rewrite nth_error_app, nth_error_firstn, firstn_length.
    replace (Nat.min p (length s)) with p by lia.
    assert (N := fun k => nth_error_skipn s p k). destruct (skipn p s) as [|y r] eqn:E.
    - assert (L := skipn_length p s). rewrite E in L. simpl in L. lia.
    - destruct (Nat.ltb_spec i p); destruct (Nat.eqb_spec i p); try lia; auto.
      + subst. rewrite Nat.sub_diag. reflexivity.
      + specialize (N (i - p)). destruct (i - p) eqn:E2; [lia|]. simpl in N |- *. rewrite N. f_equal; lia.
  Qed.

  Lemma norm_idx_bound n i : py_bound n i (norm_idx n i).
  Proof. unfold py_bound, norm_idx. destruct (Z.ltb_spec i 0); lia. Qed.

  Lemma py_bound_fun n i (x y : nat) : py_bound n i x -> py_bound n i y -> x = y.
  Proof. unfold py_bound. lia. Qed.

  Lemma py_bound_le n i a : py_bound n i a -> a <= n.
  Proof. unfold py_bound. lia. Qed.

  Definition rewindow n (s : list T) (w : list T) : list T := firstn (length s - n) s ++ w.

  Lemma rewindow_length n s w : length w = Nat.min n (length s) -> length (rewindow n s w) = length s.
  Proof. intro H. unfold rewindow. rewrite app_length, firstn_length. lia. Qed.

  Lemma lastn_rewindow n s w : length w = Nat.min n (length s) -> lastn n (rewindow n s w) = w.
  Proof.
    intro H. apply nth_error_ext; intro i. rewrite nth_error_lastn, rewindow_length by exact H.
    unfold rewindow. rewrite nth_error_app, firstn_length.
    destruct (Nat.ltb_spec (length s - n + i) (Nat.min (length s - n) (length s))); [lia|].
    f_equal; lia.
  Qed.

  Lemma nth_rewindow n s w p : length w = Nat.min n (length s) ->
    nth_error (rewindow n s w) p =
    if p <? length s - n then nth_error s p else nth_error w (p - (length s - n)).
  Proof.
    intro H. unfold rewindow. rewrite nth_error_app, firstn_length, nth_error_firstn.
    replace (Nat.min (length s - n) (length s)) with (length s - n) by lia.
    destruct (Nat.ltb_spec p (length s - n)); reflexivity.
  Qed.

  Lemma rb_rel_set n s b w : rb_rel n s b -> length w = Nat.min n (length s) ->
    rb_rel n (rewindow n s w) (rb_set_view b w).
  Proof.
    intros R Hw. pose proof (rb_rel_len R) as L. destruct R as (Ho & M & Hn & V).
    destruct (@rb_set_view_spec b w Ho) as (Ho' & V' & M' & C'); [lia|].
    split; [exact Ho'|]. split; [congruence|]. split; [exact Hn|].
    rewrite V'. symmetry; apply lastn_rewindow; exact Hw.
  Qed.

  Lemma rb_step_rel n s b o : rb_rel n s b ->
    match o with OpPush d => ~ rb_rejects b d | _ => True end ->
    exists b' s', rb_step b o = Ok b' /\ stream_step n s o s' /\ rb_rel n s' b'.
  Proof.
    intros R Hrej. pose proof (rb_rel_len R) as L. pose proof R as (Ho & M & Hn & V).
    pose proof (length_rb_view Ho) as Lv.
    destruct o as [d|i x|lo hi v]; simpl.
    - destruct (@rb_push_spec0 b d Ho) as (b' & E & Ho' & V' & C' & M'); [lia|exact Hrej|].
      rewrite E. simpl. exists b', (s ++ d). split; [reflexivity|]. split; [constructor|].
      split; [exact Ho'|]. split; [congruence|]. split; [exact Hn|].
      rewrite V', M, V. apply lastn_app.
    - unfold rb_setitem. rewrite Lv, L.
      destruct ((i <? - Z.of_nat (Nat.min n (length s)))%Z || (Z.of_nat (Nat.min n (length s)) <=? i)%Z) eqn:E.
      + exists b, s. split; [reflexivity|]. split; [|exact R]. constructor. unfold py_index. lia.
      + set (j := Z.to_nat (if (i <? 0)%Z then (i + Z.of_nat (Nat.min n (length s)))%Z else i)).
        assert (Hj : py_index (Nat.min n (length s)) i j).
        { unfold py_index, j. destruct (Z.ltb_spec i 0); lia. }
        set (w := splice (rb_view b) j [x]).
        assert (Lw : length w = Nat.min n (length s)).
        { unfold w. rewrite length_set1; destruct Hj; lia. }
        exists (rb_set_view b w), (rewindow n s w). split; [reflexivity|].
        split; [|apply rb_rel_set; auto].
        replace (rewindow n s w) with (update s (window_pos n s j) x); [constructor; exact Hj|].
        destruct Hj as [Hj _].
        apply nth_error_ext; intro p. rewrite nth_update by (unfold window_pos; lia).
        rewrite nth_rewindow by exact Lw. unfold w. rewrite nth_error_set1 by lia.
        rewrite V, nth_error_lastn. unfold window_pos.
        destruct (Nat.eqb_spec p (length s - n + j)); destruct (Nat.ltb_spec p (length s - n));
          destruct (Nat.eqb_spec (p - (length s - n)) j); try lia; auto.
        f_equal; lia.
    - unfold rb_setslice. rewrite Lv, L.
      set (m := Nat.min n (length s)) in *.
      pose proof (norm_idx_bound m lo) as Bl. pose proof (norm_idx_bound m hi) as Bh.
      set (a := norm_idx m lo) in *. set (h := norm_idx m hi) in *.
      pose proof (py_bound_le Bl) as Ba. pose proof (py_bound_le Bh) as Bb.
      unfold set_slice. rewrite Lv, L. replace (Nat.min h m) with h by lia.
      replace (Nat.min a m) with a by lia.
      assert (G : forall w u, length u = h - a \/ (h <= a /\ u = []) -> w = splice (rb_view b) a u ->
         length w = m /\ forall p, nth_error (rewindow n s w) p =
           if (window_pos n s a <=? p) && (p <? window_pos n s a + length u)
           then nth_error u (p - window_pos n s a) else nth_error s p).
      { intros w u Hu Ew. assert (Hu' : a + length u <= m) by (destruct Hu as [Hu|[Hu ->]]; simpl; lia).
        assert (Lw : length w = m) by (subst w; rewrite length_splice; lia).
        split; [exact Lw|]. intro p. rewrite nth_rewindow by exact Lw. rewrite Ew.
        rewrite nth_error_splice by lia. rewrite V, nth_error_lastn. unfold window_pos.
        destruct (Nat.leb_spec (length s - n + a) p);
          destruct (Nat.ltb_spec p (length s - n + a + length u)); simpl;
          destruct (Nat.ltb_spec p (length s - n)); try lia; auto;
          destruct (Nat.ltb_spec (p - (length s - n)) a); try lia;
          destruct (Nat.ltb_spec (p - (length s - n)) (a + length u)); try lia; auto; f_equal; lia. }
      destruct (Nat.eqb_spec (length v) (h - a)) as [Hv|Hv].
      + destruct (G _ v (or_introl Hv) eq_refl) as (Lw & Hp). simpl.
        eexists; exists (rewindow n s (splice (rb_view b) a v)). split; [reflexivity|].
        split; [|apply rb_rel_set; auto].
        eapply st_slice; eauto. apply rewindow_length; exact Lw.
      + destruct v as [|x [|y v]].
        * simpl in *. exists b, s. split; [reflexivity|]. split; [|exact R]. eapply st_slice_bad; eauto.
        * simpl in *.
          destruct (G _ (repeat x (h - a)) (or_introl (repeat_length _ _)) eq_refl) as (Lw & Hp). simpl.
          eexists; exists (rewindow n s (splice (rb_view b) a (repeat x (h - a)))). split; [reflexivity|].
          split; [|apply rb_rel_set; auto].
          eapply st_slice_bcast; eauto.
          -- apply rewindow_length; exact Lw.
          -- intro p. rewrite Hp, repeat_length, nth_error_repeat'.
             destruct (Nat.leb_spec (window_pos n s a) p);
               destruct (Nat.ltb_spec p (window_pos n s a + (h - a))); simpl; auto.
             destruct (Nat.ltb_spec (p - window_pos n s a) (h - a)); [reflexivity|lia].
        * exists b, s. split; [reflexivity|]. split; [|exact R]. eapply st_slice_bad; eauto; simpl; lia.
  Qed.

  (** Whatever the scaling factor: a run that succeeds follows the stream. *)
  Lemma rb_run_rel n os : forall s b b', rb_rel n s b -> foldM (@rb_step T) os b = Ok b' ->
    exists s', stream_run n s os s' /\ rb_rel n s' b'.
  Proof.
    induction os as [|o os IH]; intros s b b' R E.
    - simpl in E; inversion E; subst. exists s. split; [constructor|exact R].
    - simpl in E. apply bind_ok in E. destruct E as (b1 & E1 & E2).
      destruct (@rb_step_rel n s b o R) as (b1' & s1 & E1' & S1 & R1).
      { destruct o; auto. intro Hr. destruct R as (Ho & M & Hn & V). simpl in E1.
        rewrite rb_rejects_err in E1; auto; [discriminate|lia]. }
      rewrite E1 in E1'; inversion E1'; subst b1'.
      destruct (IH s1 b1 b' R1 E2) as (s2 & S2 & R2).
      exists s2. split; [econstructor; eauto|exact R2].
  Qed.

  Lemma stream_step_fun n (s : list T) o s1 s2 : stream_step n s o s1 -> stream_step n s o s2 -> s1 = s2.
  Proof.
    intros H1 H2; inversion H1; subst; inversion H2; subst; auto;
      repeat match goal with
        | H : py_index _ ?i ?a, H' : py_index _ ?i ?b |- _ =>
            assert (a = b) by (destruct H, H'; lia); subst; clear H'
        | H : py_bound _ ?i ?a, H' : py_bound _ ?i ?b |- _ =>
            assert (a = b) by (eapply py_bound_fun; eassumption); subst; clear H'
        end; auto; try (exfalso; simpl in *; eauto; lia);
      try (apply nth_error_ext; intro p;
        repeat match goal with H : forall p, nth_error _ p = _ |- _ => rewrite H end; reflexivity).
  all: exfalso; match goal with H : forall j, ~ _ |- _ => eapply H; eassumption end.
  Qed.

  Lemma stream_run_fun n os : forall (s s1 s2 : list T),
    stream_run n s os s1 -> stream_run n s os s2 -> s1 = s2.
  Proof.
    induction os as [|o os IH]; intros s s1 s2 H1 H2; inversion H1; subst; inversion H2; subst; auto.
    match goal with A : stream_step n s o ?u, B : stream_step n s o ?v |- _ =>
      assert (u = v) by (eapply stream_step_fun; eassumption); subst v end.
    eauto.
  Qed.

  Lemma rb_new_rel mem (data : option (list T)) shape n sf :
    (1 <= sf)%Q -> 0 < n ->
    match shape with Some k => k = n | None => exists d, data = Some d /\ length d = n end ->
    (match data with Some d => length d <= n | None => True end \/ (sf <= 2)%Q) ->
    exists b, rb_new mem data shape true sf = Ok b /\
      rb_rel n (match data with Some d => d | None => [] end) b /\
      Z.of_nat (length (rb_buf b)) = Qceiling (sf * inject_Z (Z.of_nat n)) /\
      ((sf <= 2)%Q -> length (rb_buf b) <= 2 * n).
  Proof.
    intros H1 Hn Hs Hd. unfold rb_new.
    destruct (rb_alloc_spec mem n H1) as (b & E & Ho & V & M & C & C1 & C2).
    destruct data as [d|].
    - replace (match shape with Some n0 => n0 | None => length d end) with n
        by (destruct shape; [auto|destruct Hs as (d' & Ed & <-); congruence]).
      rewrite E. simpl. destruct (@rb_push_spec b d Ho) as (b' & E' & Ho' & V' & C' & M').
      + lia.
      + destruct Hd as [Hd|Hd]; [left; lia|right; rewrite M; auto].
      + rewrite E'. simpl. eexists; split; [reflexivity|]. split; [|split; [lia|rewrite C'; exact C2]].
        split; [exact Ho'|]. split; [congruence|]. split; [exact Hn|].
        rewrite V', V, M. reflexivity.
    - destruct shape as [k|]; [subst k|destruct Hs as (d' & Ed & _); discriminate].
      rewrite E. exists b. split; [reflexivity|]. split; [|split; [exact C|exact C2]].
      split; [exact Ho|]. split; [congruence|]. split; [exact Hn|]. exact V.
  Qed.

  (** Any reachable buffer is [rb_ok], whatever the scaling factor >= 1. *)
  Lemma rb_step_ok b o b' : rb_ok b -> 0 < rb_max b ->
    rb_step b o = Ok b' ->
    rb_ok b' /\ rb_max b' = rb_max b /\ length (rb_buf b') = length (rb_buf b).
  Proof.
    intros Ho Hn E. destruct o as [d|i x|lo hi v]; simpl in E.
    - destruct (@rb_push_cases b d Ho Hn) as [(_ & E1)|(_ & b1 & E1 & Ho1 & V1 & C1 & M1)];
        rewrite E1 in E; simpl in E; inversion E; subst. auto.
    - unfold rb_setitem in E. pose proof (length_rb_view Ho) as Lv.
      destruct ((i <? - Z.of_nat (length (rb_view b)))%Z || (Z.of_nat (length (rb_view b)) <=? i)%Z) eqn:Ei;
        inversion E; subst; auto.
      match goal with |- context [rb_set_view b ?w] => destruct (@rb_set_view_spec b w Ho) as (A1 & A2 & A3 & A4) end.
      + rewrite length_set1; [exact Lv|]. destruct (Z.ltb_spec i 0); lia.
      + auto.
    - unfold rb_setslice in E. pose proof (length_rb_view Ho) as Lv.
      destruct (set_slice _ _ _ v) as [w|e] eqn:Es; simpl in E; inversion E; subst; auto.
      destruct (@rb_set_view_spec b w Ho) as (A1 & A2 & A3 & A4); auto.
      unfold set_slice in Es. rewrite Lv in Es.
      assert (B1 := py_bound_le (norm_idx_bound (rb_len b) lo)).
      assert (B2 := py_bound_le (norm_idx_bound (rb_len b) hi)).
      destruct (Nat.eqb_spec (length v) (Nat.min (norm_idx (rb_len b) hi) (rb_len b) - norm_idx (rb_len b) lo)).
      + inversion Es. subst w.
        destruct (Nat.leb_spec (norm_idx (rb_len b) lo) (norm_idx (rb_len b) hi)).
        * rewrite length_splice; lia.
        * rewrite length_splice; lia.
      + destruct v as [|y [|]]; try discriminate. inversion Es. subst w.
        rewrite length_splice; rewrite ?repeat_length; lia.
  Qed.

  (** Runs with any scaling factor >= 1 whose pushes are acceptable. *)
  Lemma rb_run_ok os : forall b, rb_ok b -> 0 < rb_max b ->
    (forall d, In (OpPush d) os -> length d <= rb_max b \/ length (rb_buf b) <= 2 * rb_max b) ->
    exists b', foldM (@rb_step T) os b = Ok b' /\ rb_ok b' /\ rb_max b' = rb_max b /\      length (rb_buf b') = length (rb_buf b).
  Proof.
    induction os as [|o os IH]; intros b Ho Hn Hp; simpl.
    - exists b; auto.
    - assert (E : exists b1, rb_step b o = Ok b1).
      { destruct o as [d|i x|lo hi v]; simpl.
        - destruct (@rb_push_spec b d Ho Hn (Hp d (or_introl eq_refl))) as (b' & E & _).
          rewrite E. simpl. eauto.
        - destruct (rb_setitem b i x); eauto.
        - destruct (rb_setslice b lo hi v); eauto. }
      destruct E as (b1 & E). rewrite E. simpl.
      destruct (@rb_step_ok b o b1 Ho Hn E) as (Ho1 & M1 & C1).
      destruct (IH b1 Ho1) as (b2 & E2 & Ho2 & M2 & C2).
      + lia.
      + intros d Hd. rewrite M1, C1. apply Hp. right; exact Hd.
      + exists b2. split; [exact E2|]. split; [exact Ho2|]. split; lia.
  Qed.
End Ring.

(** Statements used by the property file. *)
Lemma C01_lemma (T : Type) mem (data : option (list T)) shape n sf os :
  (1 <= sf)%Q -> (sf <= 2)%Q -> 0 < n ->
  match shape with Some k => k = n | None => exists d, data = Some d /\ length d = n end ->
  exists b0 b s,
    rb_new mem data shape true sf = Ok b0 /\
    foldM (@rb_step T) os b0 = Ok b /\
    stream_run n (match data with Some d => d | None => [] end) os s /\
    forall s', stream_run n (match data with Some d => d | None => [] end) os s' -> rb_view b = lastn n s'.
Proof.
  intros H1 H2 Hn Hs.
  destruct (@rb_new_rel T mem data shape n sf H1 Hn Hs (or_intror H2)) as (b0 & E0 & R0 & C & C2).
  pose proof R0 as (Ho & M & _ & V).
  destruct (@rb_run_ok T os b0 Ho) as (b & E & Ho2 & M2 & Cb).
  - lia.
  - intros d _. right. rewrite M. auto.
  - destruct (rb_run_rel _ R0 E) as (s & S & R).
    exists b0, b, s. split; [exact E0|]. split; [exact E|]. split; [exact S|].
    intros s' S'. rewrite (stream_run_fun S' S). apply R.
Qed.

Lemma C01_any_lemma (T : Type) mem (data : option (list T)) shape n sf os b0 b :
  (1 <= sf)%Q -> 0 < n ->
  match shape with Some k => k = n | None => exists d, data = Some d /\ length d = n end ->
  match data with Some d => length d <= n | None => True end ->
  rb_new mem data shape true sf = Ok b0 ->
  foldM (@rb_step T) os b0 = Ok b ->
  Z.of_nat (length (rb_buf b)) = Qceiling (sf * inject_Z (Z.of_nat n)) /\
  exists s, stream_run n (match data with Some d => d | None => [] end) os s /\
    rb_view b = lastn n s.
Proof.
  intros H1 Hn Hs Hd E0 E.
  destruct (@rb_new_rel T mem data shape n sf H1 Hn Hs (or_introl Hd)) as (b0' & E0' & R0 & C & C2).
  rewrite E0 in E0'. inversion E0'; subst b0'.
  assert (G : rb_max b = rb_max b0 /\ length (rb_buf b) = length (rb_buf b0)).
  { pose proof R0 as (Ho & M & _ & V). assert (0 < rb_max b0) by lia. clear - Ho H E.
    revert b0 Ho H E; induction os as [|o os IH]; intros b0 Ho H E; simpl in E.
    - inversion E; auto.
    - apply bind_ok in E. destruct E as (b1 & E1 & E2).
      destruct (rb_step_ok _ Ho H E1) as (Ho1 & M1 & C1).
      destruct (IH b1 Ho1) as (A & B); [lia|exact E2|]. split; congruence. }
  destruct G as [_ G]. split; [lia|].
  destruct (rb_run_rel _ R0 E) as (s & S & R). exists s. split; [exact S|apply R].
Qed.

Lemma C02_lemma (T : Type) mem (data : option (list T)) shape n sf os d b0 b b' r :
  (1 <= sf)%Q -> 0 < n ->
  match shape with Some k => k = n | None => exists d, data = Some d /\ length d = n end ->
  match data with Some d => length d <= n | None => True end \/ (sf <= 2)%Q ->
  rb_new mem data shape true sf = Ok b0 ->
  foldM (@rb_step T) os b0 = Ok b ->
  rb_push b d = Ok (b', r) ->
  r + length (rb_view b') = length (rb_view b) + length d /\
  (r = 0 <-> rb_view b' = rb_view b ++ d).
Proof.
  intros H1 Hn Hs Hd E0 E E'.
  destruct (@rb_new_rel T mem data shape n sf H1 Hn Hs Hd) as (b0' & E0' & R0 & C & C2).
  rewrite E0 in E0'. inversion E0'; subst b0'.
  destruct (rb_run_rel _ R0 E) as (s & S & R).
  destruct R as (Ho & M & _ & V).
  destruct (@rb_push_cases T b d Ho) as [(_ & Ee)|(_ & b1 & Ee & Ho' & V' & C' & M')].
  - lia.
  - congruence.
  - rewrite E' in Ee. inversion Ee; subst b1 r.
    assert (L' : length (rb_view b') = Nat.min (rb_max b) (length (rb_view b) + length d)).
    { rewrite V', length_lastn, app_length. reflexivity. }
    assert (L := length_rb_view Ho). pose proof Ho as [_ H4 _ _ _].
    split; [lia|]. split.
    + intro Hr. rewrite V'. apply lastn_all. rewrite app_length. lia.
    + intro Hv. rewrite Hv, app_length. lia.
Qed.

Lemma C03_partial_lemma (T : Type) mem n sf os :
  (1 <= sf)%Q -> 0 < n ->
  (forall d, In (OpPush d) os -> length d <= n \/ (sf <= 2)%Q) ->
  exists b0 b,
    rb_new mem (@None (list T)) (Some n) true sf = Ok b0 /\
    foldM (@rb_step T) os b0 = Ok b /\
    Z.of_nat (length (rb_buf b)) = Qceiling (sf * inject_Z (Z.of_nat n)).
Proof.
  intros H1 Hn Hp. unfold rb_new.
  destruct (@rb_alloc_spec T mem n sf H1) as (b0 & E & Ho & V & M & C & C1 & C2).
  exists b0. destruct (@rb_run_ok T os b0 Ho) as (b & E2 & Ho2 & M2 & Cb).
  - lia.
  - intros d Hd. destruct (Hp d Hd) as [Hk|Hk]; [left; lia|right; rewrite M; auto].
  - exists b. split; [exact E|]. split; [exact E2|]. lia.
Qed.

Lemma C03_iff_lemma (T : Type) mem n sf os d (b0 b : rb T) :
  (1 <= sf)%Q -> 0 < n ->
  rb_new mem None (Some n) true sf = Ok b0 ->
  foldM (@rb_step T) os b0 = Ok b ->
  let left_over := length (rb_view b) + length d - n in
  (rb_push b d = Err ValueError <->
   n < left_over /\ rb_start b + n + left_over <= length (rb_buf b)) /\
  (is_ok (rb_push b d) = false -> rb_push b d = Err ValueError).
Proof.
  intros H1 Hn E0 E left_over.
  destruct (@rb_new_rel T mem None (Some n) n sf H1 Hn eq_refl (or_introl I)) as (b0' & E0' & R0 & C & C2).
  rewrite E0 in E0'. inversion E0'; subst b0'.
  destruct (rb_run_rel _ R0 E) as (s & S & R). destruct R as (Ho & M & _ & V).
  unfold left_over. rewrite (length_rb_view Ho).
  destruct (@rb_push_cases T b d Ho) as [(Hr & Ee)|(Hr & b1 & Ee & _)].
  - lia.
  - rewrite Ee. unfold rb_rejects in Hr. rewrite M in Hr. simpl. split; [split|]; auto.
  - rewrite Ee. unfold rb_rejects in Hr. rewrite M in Hr. simpl. split; [split|]; try discriminate. tauto.
Qed.

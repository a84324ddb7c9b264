(** * PResProb: distribution of the reservoir-sampled index. *)
From Coq Require Import QArith.
From Verif Require Import Np NpFacts Mat SLog PLog MProfile PProfile MRand SRand PRand MReservoir SReservoir PReservoir.
Set Implicit Arguments.
Open Scope nat_scope.

Lemma safe_ex {X} (t : rnd X) P : safe t P -> exists x, P x.
Proof.
  induction t as [x|e|a b k IH|n k IH]; simpl; intro H.
  - eauto.
  - contradiction.
  - apply (IH true), H.
  - destruct H as [Hn H]. apply (IH 0), H, Hn.
Qed.

Section PResProb.
  Context {A : Type} {NA : NumOps A} {OL : OrdLaws A}.
  Notation num := (Np.num A).

  (** The arrays of one side *)
  Definition side_mp (l : bool) (s : @mrs A) := if l then r_left s else r_right s.
  Definition side_idx (l : bool) (s : @mrs A) := if l then r_ileft s else r_iright s.
  Definition side_nm (l : bool) (s : @mrs A) := if l then r_nleft s else r_nright s.
  Definition side_rows (l : bool) : Z -> Z -> bool := if l then is_left else is_right.
  Definition on_side (l : bool) (d : Z) : bool := Bool.eqb l (0 <=? d)%Z.

  Lemma mrs_ok_side h w es s l : mrs_ok h w es s ->
    rside (side_rows l) w es (side_mp l s) (side_idx l s) (side_nm l s).
  Proof. intros (_ & H1 & H2). destruct l; assumption. Qed.

  (** The new cell of an event for column [c] on side [l] *)
  Definition new_cell (l : bool) (d : Z) (vals : list num) (c : nat) : list (Z * num) :=
    if on_side l d then diag_cell d vals c else [].

  Lemma sel_new_cell l es d vals rest c : Forall no_shift es ->
    sel (side_rows l (Z.of_nat c)) (Z.of_nat c) (log (es ++ [EDiag d (vals :: rest)])) =
    sel (side_rows l (Z.of_nat c)) (Z.of_nat c) (log es) ++ new_cell l d vals c.
  Proof.
    intro Hn. destruct (no_shift_qs Hn) as [Q S]. rewrite log_snoc, sel_app. f_equal. cbn [event_cells]. rewrite Q, S.
    unfold new_cell, on_side, side_rows. destruct (Z.leb_spec 0 d); destruct l; cbn [Bool.eqb].
    - apply sel_diag_cell. auto.
    - apply diag_sides. lia.
    - apply diag_sides. lia.
    - apply sel_diag_cell. auto.
  Qed.

  Definition step_expect (g : option Z -> Q) (v : num) (i : Z) (k : nat) (new : list (Z * num)) : Q :=
    match new with
    | (r, x) :: _ =>
       if fltb x v then g (Some r)
       else if feqb x v && isfinite x then (frac 1 (S k) * g (Some r) + (1 - frac 1 (S k)) * g (Some i))%Q
       else g (Some i)
    | [] => g (Some i)
    end.

  Lemma mrs_diag_expect h w s d vals rest l c v i k g : mrs_shape h w s -> fits h w (EDiag d (vals :: rest)) ->
    ent3 (side_mp l s) (side_idx l s) (side_nm l s) c = Some (v, i, k) ->
    (expect (mrs_diag s d (vals :: rest)) (fun s' => g (nth_error (side_idx l s') c)) ==
      step_expect g v i k (new_cell l d vals c))%Q.
  Proof.
    intros (Hr & L1 & L2 & L3 & L4 & L5 & L6) (Hd & vals' & rest' & E & Hv1 & Hv2) He. injection E as <- <-.
    unfold mrs_diag. cbn [row0 lift rbind]. rewrite Hr.
    pose proof (ent3_inv _ _ _ _ He) as (Hv & Hi & Hk).
    unfold new_cell, on_side. set (rg := arange 0 (Nat.max w h)).
    destruct (Z.leb_spec 0 d) as [Hpos|Hneg]; rewrite expect_bind.
    - assert (Li : length (lslice rg 0 (length vals)) = length vals) by (unfold rg; rewrite length_lslice, length_arange; lia).
      destruct l; cbn [Bool.eqb].
      + cbn [side_mp side_idx side_nm] in *.
        rewrite (@expect_ext _ _ (fun _ => True) _ (fun t => let '(mp', mpi', nm') := t in g (nth_error mpi' c))).
        2:{ eapply safe_impl; [|apply update_res_at_safe]; auto; lia. }
        2:{ intros [[a b] e] _. reflexivity. }
        unfold diag_cell. replace (Z.to_nat (Z.max 0 d)) with (Z.to_nat d) by lia.
        destruct (Nat.leb_spec (Z.to_nat d) c) as [H1|H1]; cbn [andb].
        * destruct (Nat.ltb_spec c (Z.to_nat d + length vals)) as [H2|H2].
          -- destruct (@nth_error_lt_some _ vals (c - Z.to_nat d)) as [x Hx]; [lia|]. rewrite Hx. cbn [step_expect].
             apply (@update_res_at_expect _ _ vals _ _ _ _ _ Li); auto; try lia.
             change (length vals) with (0 + length vals). unfold rg. rewrite range_slice by lia. f_equal. lia.
          -- rewrite update_res_at_other by (auto; lia). rewrite Hi. reflexivity.
        * rewrite update_res_at_other by (auto; lia). rewrite Hi. reflexivity.
      + rewrite (@expect_ext _ _ (fun _ => True) _ (fun t => g (Some i))).
        2:{ eapply safe_impl; [|apply update_res_at_safe]; auto; lia. }
        2:{ intros [[a b] e] _. cbn [expect side_idx r_iright]. cbn [side_idx] in Hi. rewrite Hi. reflexivity. }
        eapply expect_const. apply update_res_at_safe; lia.
    - set (n := Z.to_nat (- d)).
      assert (Li : length (lslice rg n (n + length vals)) = length vals) by (unfold rg; rewrite length_lslice, length_arange; lia).
      destruct l; cbn [Bool.eqb].
      + rewrite (@expect_ext _ _ (fun _ => True) _ (fun t => g (Some i))).
        2:{ eapply safe_impl; [|apply (@update_res_at_safe _ _ vals _ (r_right s) (r_iright s) (r_nright s) 0 Li); lia]; auto. }
        2:{ intros [[a b] e] _. cbn [expect side_idx r_ileft]. cbn [side_idx] in Hi. rewrite Hi. reflexivity. }
        eapply expect_const. apply (@update_res_at_safe _ _ vals _ (r_right s) (r_iright s) (r_nright s) 0 Li); lia.
      + cbn [side_mp side_idx side_nm] in *.
        rewrite (@expect_ext _ _ (fun _ => True) _ (fun t => let '(mp', mpi', nm') := t in g (nth_error mpi' c))).
        2:{ eapply safe_impl; [|apply (@update_res_at_safe _ _ vals _ (r_right s) (r_iright s) (r_nright s) 0 Li); lia]; auto. }
        2:{ intros [[a b] e] _. reflexivity. }
        unfold diag_cell. replace (Z.to_nat (Z.max 0 d)) with 0 by lia. cbn [Nat.leb andb].
        destruct (Nat.ltb_spec c (0 + length vals)) as [H2|H2].
        * destruct (@nth_error_lt_some _ vals (c - 0)) as [x Hx]; [lia|]. rewrite Hx. cbn [step_expect].
          apply (@update_res_at_expect _ _ vals _ (r_right s) (r_iright s) (r_nright s) 0 Li); auto; try lia.
          unfold rg. rewrite range_slice by lia. f_equal. lia.
        * rewrite (@update_res_at_other _ _ vals _ (r_right s) (r_iright s) (r_nright s) 0 Li) by (auto; lia). rewrite Hi. reflexivity.
  Qed.

  Lemma res_ok_det cells v i n v' i' n' : res_ok cells v i n -> res_ok cells v' i' n' -> v = v' /\ n = n'.
  Proof.
    intros [(-> & _ & -> & H)|(F & I & M & ->)] [(-> & _ & -> & H')|(F' & I' & M' & ->)]; auto.
    - specialize (H _ _ I'). destruct (isfinite_lt _ F'). congruence.
    - specialize (H' _ _ I). destruct (isfinite_lt _ F). congruence.
    - specialize (M _ _ I'). specialize (M' _ _ I). destruct v, v'; try discriminate. simpl in M, M'.
      assert (a = a0) as -> by (apply nltb_total; assumption). auto.
  Qed.


  Lemma frac_split a k : (frac 1 (S k) + (1 - frac 1 (S k)) * frac a k == frac (S a) (S k))%Q \/ k = 0.
  Proof.
    destruct k as [|k]; [auto|left]. unfold frac. rewrite !Nat2Z.inj_succ. unfold Z.succ. rewrite !inject_Z_plus.
    change (inject_Z (Z.of_nat 1)) with 1%Q. change (inject_Z 1) with 1%Q.
    assert (0 < inject_Z (Z.of_nat k) + 1)%Q.
    { change 1%Q with (inject_Z 1). rewrite <- inject_Z_plus. change 0%Q with (inject_Z 0). rewrite <- Zlt_Qlt. lia. }
    assert (0 < inject_Z (Z.of_nat k) + 1 + 1)%Q.
    { change 1%Q with (inject_Z 1). rewrite <- !inject_Z_plus. change 0%Q with (inject_Z 0). rewrite <- Zlt_Qlt. lia. }
    field. split; intro E; rewrite E in *; discriminate.
  Qed.
  Lemma frac_split0 a k : ((1 - frac 1 (S k)) * frac a k == frac a (S k))%Q \/ k = 0.
  Proof.
    destruct k as [|k]; [auto|left]. unfold frac. rewrite !Nat2Z.inj_succ. unfold Z.succ. rewrite !inject_Z_plus.
    change (inject_Z (Z.of_nat 1)) with 1%Q. change (inject_Z 1) with 1%Q.
    assert (0 < inject_Z (Z.of_nat k) + 1)%Q.
    { change 1%Q with (inject_Z 1). rewrite <- inject_Z_plus. change 0%Q with (inject_Z 0). rewrite <- Zlt_Qlt. lia. }
    assert (0 < inject_Z (Z.of_nat k) + 1 + 1)%Q.
    { change 1%Q with (inject_Z 1). rewrite <- !inject_Z_plus. change 0%Q with (inject_Z 0). rewrite <- Zlt_Qlt. lia. }
    field. split; intro E; rewrite E in *; discriminate.
  Qed.

  (** Every delivered cell attaining the minimum is the stored one with the same probability. *)
  Lemma side_uniform h w es l c r v i k : Forall is_diag es -> Forall (fits h w) es -> Forall no_ninf es -> c < w ->
    res_ok (sel (side_rows l (Z.of_nat c)) (Z.of_nat c) (log es)) v i k -> isfinite v = true ->
    (prob (mrs_run (mrs_init h w) es) (fun s => at_row r (nth_error (side_idx l s) c)) ==
      frac (count_row r v (sel (side_rows l (Z.of_nat c)) (Z.of_nat c) (log es))) k)%Q.
  Proof.
    intros Hd Hf Hni Hc. revert v i k.
    assert (Hn : Forall no_shift es) by (eapply Forall_impl; [|exact Hd]; intros []; simpl; tauto).
    induction es as [|e es IH] using rev_ind; intros v i k Hok Fv.
    - destruct Hok as [(-> & _)|(_ & [] & _)]. discriminate.
    - apply Forall_app in Hd, Hf, Hn, Hni. destruct Hd as [Hd He], Hf as [Hf Hfe], Hn as [Hn _], Hni as [Hni Hne].
      apply Forall_inv in He, Hfe, Hne. specialize (IH Hd Hf Hni Hn).
      destruct e as [d vs| | |]; simpl in He; try contradiction.
      pose proof Hfe as (_ & vals & rest & -> & _).
      pose proof (mrs_run_safe Hd Hf Hni) as Hs.
      destruct (safe_ex _ _ Hs) as [s0 Hs0].
      pose proof (mrs_ok_side l Hs0) as (_ & _ & _ & H4). destruct (H4 c Hc) as (v0 & i0 & k0 & _ & Hok0).
      set (cells := sel (side_rows l (Z.of_nat c)) (Z.of_nat c) (log es)) in *.
      rewrite (sel_new_cell l d vals rest c Hn) in Hok |- *. fold cells in Hok |- *.
      set (new := new_cell l d vals c) in *.
      set (g := fun o => ind (at_row r o)).
      assert (E : (prob (mrs_run (mrs_init h w) (es ++ [EDiag d (vals :: rest)])) (fun s => at_row r (nth_error (side_idx l s) c)) ==
        expect (mrs_run (mrs_init h w) es) (fun s => match nth_error (side_idx l s) c with
            | Some i1 => step_expect g v0 i1 k0 new | None => 0 end))%Q).
      { unfold prob, mrs_run. rewrite rfold_app_expect, expect_bind.
        eapply expect_ext; [exact Hs|]. intros s Hok1. pose proof (mrs_ok_side l Hok1) as (_ & _ & _ & H4').
        destruct (H4' c Hc) as (v1 & i1 & k1 & Hent & Hok1').
        destruct (res_ok_det Hok0 Hok1') as [<- <-].
        destruct (ent3_inv _ _ _ _ Hent) as (_ & Hi1 & _). rewrite Hi1.
        apply (@mrs_diag_expect h w s d vals rest l c v0 i1 k0 g (mrs_ok_shape Hok1) Hfe Hent). }
      rewrite E. clear E.
      assert (Hnew : new = [] \/ exists r' x, new = [(r', x)] /\ x <> NInf).
      { unfold new, new_cell, diag_cell. destruct (on_side l d); [|auto].
        destruct (_ && _); [|auto]. destruct (nth_error vals _) as [x|] eqn:Ex; [|auto].
        right. do 2 eexists. split; [reflexivity|]. intros ->. apply (Hne vals (or_introl eq_refl)). eapply nth_error_In; exact Ex. }
      assert (Hsafe : safe (mrs_run (mrs_init h w) es) (fun s => exists i1, nth_error (side_idx l s) c = Some i1)).
      { eapply safe_impl; [|exact Hs]. intros s Hok1. pose proof (mrs_ok_side l Hok1) as (_ & _ & _ & H4').
        destruct (H4' c Hc) as (v1 & i1 & k1 & Hent & _). destruct (ent3_inv _ _ _ _ Hent) as (_ & Hi1 & _). eauto. }
      assert (Hkeep : isfinite v0 = true -> (expect (mrs_run (mrs_init h w) es) (fun s => match nth_error (side_idx l s) c with
            | Some i1 => g (Some i1) | None => 0 end) == frac (count_row r v0 cells) k0)%Q).
      { intro F0. rewrite <- (IH v0 i0 k0 Hok0 F0). unfold prob. eapply expect_ext; [exact Hsafe|].
        intros s [i1 Hi1]. rewrite Hi1. reflexivity. }
      destruct Hnew as [->|(r' & x & -> & Hx)].
      + rewrite app_nil_r in *. destruct (res_ok_det Hok0 Hok) as [-> ->]. cbn [step_expect]. apply Hkeep, Fv.
      + cbn [step_expect]. rewrite count_row_app. unfold count_row at 2. cbn [filter snd fst].
        destruct (fltb x v0) eqn:El.
        * assert (R : rres v0 i0 k0 r' x x r' 1) by (left; auto).
          destruct (res_ok_det Hok (res_ok_step Hok0 Hx R)) as [-> ->].
          rewrite (@expect_ext _ _ _ _ (fun _ => g (Some r')) Hsafe) by (intros s [i1 ->]; reflexivity).
          rewrite (expect_const _ _ _ Hsafe). unfold g, at_row.
          assert (feqb x x = true) as -> by (apply feqb_eq; split; [reflexivity|destruct x; try discriminate; auto]). cbn [andb].
          assert (count_row r x cells = 0) as ->.
          { pose proof (count_row_le r x cells). enough (count x cells = 0) by lia.
            apply count_zero. intros r0 x0 Hin. destruct (feqb x0 x) eqn:E0; [|reflexivity]. apply feqb_finite in E0. subst x0.
            destruct Hok0 as [(-> & _ & _ & HH)|(_ & _ & HH & _)]; rewrite (HH _ _ Hin) in El; discriminate. }
          destruct (r' =? r)%Z; cbn [length plus ind]; unfold frac; simpl; reflexivity.
        * destruct (feqb x v0 && isfinite x) eqn:Ee.
          -- assert (R : rres v0 i0 k0 r' x v0 i0 (S k0)) by (right; left; repeat split; auto).
             destruct (res_ok_det Hok (res_ok_step Hok0 Hx R)) as [-> ->].
             apply andb_true_iff in Ee. destruct Ee as [Ee Fx]. rewrite Ee. cbn [andb].
             rewrite (@expect_ext _ _ _ _ (fun s => frac 1 (S k0) * g (Some r') + (1 - frac 1 (S k0)) *
                  match nth_error (side_idx l s) c with Some i1 => g (Some i1) | None => 0 end)%Q Hsafe)
               by (intros s [i1 ->]; reflexivity).
             rewrite (expect_affine _ _ _ _ _ Hsafe), (Hkeep Fv).
             assert (K0 : k0 <> 0).
             { destruct Hok0 as [(-> & _)|(_ & I & _ & ->)]; [discriminate|].
               pose proof (count_pos _ _ _ I). destruct (isfinite_lt _ Fv). lia. }
             unfold g, at_row. destruct (r' =? r)%Z; cbn [length ind].
             ++ destruct (frac_split (count_row r v0 cells) k0) as [E|]; [|lia].
                rewrite Nat.add_1_r, <- E. ring.
             ++ destruct (frac_split0 (count_row r v0 cells) k0) as [E|]; [|lia].
                rewrite Nat.add_0_r, <- E. ring.
          -- assert (R : rres v0 i0 k0 r' x v0 i0 k0) by (right; right; auto).
             destruct (res_ok_det Hok (res_ok_step Hok0 Hx R)) as [-> ->].
             assert (feqb x v0 = false) as ->.
             { destruct (feqb x v0) eqn:E; [|reflexivity]. pose proof (feqb_finite _ _ E) as ->. rewrite Fv in Ee. discriminate. }
             cbn [andb length]. rewrite Nat.add_0_r. apply Hkeep, Fv.
  Qed.

  (** ** The merged index *)
  Lemma merge_draws_safe eq : forall nl nr il ir cur, length nl = length eq -> length nr = length eq ->
    length il = length eq -> length ir = length eq -> length cur = length eq ->
    safe (merge_draws eq nl nr il ir cur) (fun l => length l = length eq /\
      forall p, match nth_error eq p with
        | Some true => nth_error l p = nth_error il p \/ nth_error l p = nth_error ir p
        | _ => nth_error l p = nth_error cur p end).
  Proof.
    induction eq as [|e eq IH]; intros [|a nl] [|b nr] [|i il] [|j ir] [|x cur] L1 L2 L3 L4 L5; try discriminate.
    - simpl. split; [reflexivity|]. intros []; reflexivity.
    - injection L1 as L1. injection L2 as L2. injection L3 as L3. injection L4 as L4. injection L5 as L5. cbn [merge_draws].
      assert (H : forall y, (if e then y = i \/ y = j else y = x) ->
        safe (rbind (merge_draws eq nl nr il ir cur) (fun l => Ret (y :: l))) (fun l => length l = length (e :: eq) /\
      forall p, match nth_error (e :: eq) p with
        | Some true => nth_error l p = nth_error (i :: il) p \/ nth_error l p = nth_error (j :: ir) p
        | _ => nth_error l p = nth_error (x :: cur) p end)).
      { intros y Hy. eapply safe_bind; [apply IH; assumption|]. intros l [Hl Hp]. cbn [safe]. split; [simpl; congruence|].
        intros [|p]; simpl; [|apply Hp]. destruct e; [destruct Hy as [->| ->]; auto|congruence]. }
      destruct e; [|apply H; reflexivity]. cbn [safe]. intros []; apply H; auto.
  Qed.
  Lemma merge_draws_expect eq : forall nl nr il ir cur p g, length nl = length eq -> length nr = length eq ->
    length il = length eq -> length ir = length eq -> length cur = length eq ->
    (expect (merge_draws eq nl nr il ir cur) (fun l => g (nth_error l p)) ==
      match nth_error eq p, nth_error nl p, nth_error nr p with
      | Some true, Some a, Some b => frac a (a + b) * g (nth_error il p) + (1 - frac a (a + b)) * g (nth_error ir p)
      | _, _, _ => g (nth_error cur p)
      end)%Q.
  Proof.
    induction eq as [|e eq IH]; intros [|a nl] [|b nr] [|i il] [|j ir] [|x cur] p g L1 L2 L3 L4 L5; try discriminate.
    - destruct p; simpl; reflexivity.
    - injection L1 as L1. injection L2 as L2. injection L3 as L3. injection L4 as L4. injection L5 as L5. cbn [merge_draws].
      pose proof (merge_draws_safe eq nl nr il ir cur L1 L2 L3 L4 L5) as Hs.
      assert (H : forall y, (expect (rbind (merge_draws eq nl nr il ir cur) (fun l => Ret (y :: l))) (fun l => g (nth_error l p)) ==
         match p with O => g (Some y) | S p' => expect (merge_draws eq nl nr il ir cur) (fun l => g (nth_error l p')) end)%Q).
      { intro y. rewrite expect_bind. cbn [expect]. destruct p as [|p]; simpl; [|reflexivity].
        eapply expect_const; exact Hs. }
      destruct e; cbn [expect]; rewrite ?H; destruct p as [|p]; cbn [nth_error]; rewrite ?IH by assumption; try reflexivity.
      ring.
  Qed.

  Section Merge.
    Variables (w : nat) (s : @mrs A) (c : nat).
    Hypothesis Hok : mrs_len w s.
    Variables (vl vr : num) (il ir : Z) (nl nr : nat).
    Hypothesis Hl : ent3 (r_left s) (r_ileft s) (r_nleft s) c = Some (vl, il, nl).
    Hypothesis Hr : ent3 (r_right s) (r_iright s) (r_nright s) c = Some (vr, ir, nr).

    Lemma mrs_idx_lengths :
      let eq := zip_with (fun (e : bool) n => e && negb (n =? 0)) (zip_with feqb (r_left s) (r_right s)) (r_nleft s) in
      length eq = w /\ length (where_ (zip_with fltb (r_left s) (r_right s)) (r_ileft s) (r_iright s)) = w /\
      nth_error eq c = Some (feqb vl vr && negb (nl =? 0)) /\
      nth_error (where_ (zip_with fltb (r_left s) (r_right s)) (r_ileft s) (r_iright s)) c = Some (if fltb vl vr then il else ir).
    Proof.
      destruct Hok as (A1 & A2 & A3 & B1 & B2 & B3).
      destruct (ent3_inv _ _ _ _ Hl) as (E1 & E2 & E3). destruct (ent3_inv _ _ _ _ Hr) as (F1 & F2 & F3). cbv zeta.
      repeat split.
      - rewrite !length_zip_with. lia.
      - rewrite length_where; rewrite !length_zip_with; lia.
      - rewrite !nth_error_zip_with, E1, F1, E3. reflexivity.
      - apply nth_where; auto. rewrite nth_error_zip_with, E1, F1. reflexivity.
    Qed.

    Lemma mrs_idx_safe : safe (mrs_idx s) (fun l => length l = w /\
      if feqb vl vr && negb (nl =? 0) then nth_error l c = Some il \/ nth_error l c = Some ir
      else nth_error l c = Some (if fltb vl vr then il else ir)).
    Proof.
      unfold mrs_idx. destruct mrs_idx_lengths as (L1 & L2 & P1 & P2).
      destruct Hok as (A1 & A2 & A3 & B1 & B2 & B3).
      destruct (ent3_inv _ _ _ _ Hl) as (E1 & E2 & E3). destruct (ent3_inv _ _ _ _ Hr) as (F1 & F2 & F3).
      eapply safe_impl; [|apply merge_draws_safe; congruence].
      intros l [Ll Hp]. split; [congruence|]. specialize (Hp c). rewrite P1, P2, E2, F2 in Hp.
      destruct (feqb vl vr && negb (nl =? 0)); exact Hp.
    Qed.
    Lemma mrs_idx_expect g : (expect (mrs_idx s) (fun l => g (nth_error l c)) ==
      if feqb vl vr && negb (nl =? 0) then frac nl (nl + nr) * g (Some il) + (1 - frac nl (nl + nr)) * g (Some ir)
      else g (Some (if fltb vl vr then il else ir)))%Q.
    Proof.
      unfold mrs_idx. destruct mrs_idx_lengths as (L1 & L2 & P1 & P2).
      destruct Hok as (A1 & A2 & A3 & B1 & B2 & B3).
      destruct (ent3_inv _ _ _ _ Hl) as (E1 & E2 & E3). destruct (ent3_inv _ _ _ _ Hr) as (F1 & F2 & F3).
      rewrite merge_draws_expect by congruence. rewrite P1, P2, E2, F2, E3, F3.
      destruct (feqb vl vr && negb (nl =? 0)); reflexivity.
    Qed.
  End Merge.

  (** All cells of the column = left cells + right cells *)
  Lemma in_sides (L : list (cell num)) a r x : In (r, x) (sel all_rows a L) <->
    In (r, x) (sel (is_left a) a L) \/ In (r, x) (sel (is_right a) a L).
  Proof.
    rewrite !in_sel. unfold all_rows, is_left, is_right. destruct (r <=? a)%Z; simpl; intuition discriminate.
  Qed.
  Lemma count_sides v (L : list (cell num)) a : count v (sel all_rows a L) = count v (sel (is_left a) a L) + count v (sel (is_right a) a L).
  Proof.
    unfold count, sel. induction L as [|[[r c] x] L IH]; [reflexivity|]. simpl. unfold is_left, is_right, all_rows in *.
    destruct (c =? a)%Z; simpl; [|exact IH]. destruct (r <=? a)%Z; simpl; destruct (feqb x v); simpl; lia.
  Qed.
  Lemma count_row_sides r0 v (L : list (cell num)) a :
    count_row r0 v (sel all_rows a L) = count_row r0 v (sel (is_left a) a L) + count_row r0 v (sel (is_right a) a L).
  Proof.
    unfold count_row, sel. induction L as [|[[r c] x] L IH]; [reflexivity|]. simpl. unfold is_left, is_right, all_rows in *.
    destruct (c =? a)%Z; simpl; [|exact IH]. destruct (r <=? a)%Z; simpl; destruct (feqb x v); simpl; destruct (r =? r0)%Z; simpl; lia.
  Qed.

  Lemma count_lt_zero v cells v' i n : res_ok cells v' i n -> fltb v v' = true -> count v cells = 0.
  Proof.
    intros H Hlt. apply count_zero. intros r x Hin. destruct (feqb x v) eqn:E; [|reflexivity].
    apply feqb_finite in E. subst x.
    destruct H as [(-> & _ & _ & H)|(_ & _ & H & _)]; rewrite (H _ _ Hin) in Hlt; discriminate.
  Qed.

  Definition merged (vl vr : num) := if fltb vl vr then vl else vr.

  Lemma res_ok_merge L a vl il nl vr ir nr :
    res_ok (sel (is_left a) a L) vl il nl -> res_ok (sel (is_right a) a L) vr ir nr ->
    res_ok (sel all_rows a L) (merged vl vr) (if fltb vl vr then il else ir) (if fltb vl vr then nl else if feqb vl vr then nl + nr else nr) /\
    (feqb vl vr = true -> isfinite vl = true -> res_ok (sel all_rows a L) (merged vl vr) il (nl + nr)).
  Proof.
    intros H1 H2. unfold merged. destruct (fltb vl vr) eqn:El.
    - assert (feqb vl vr = false) as ->.
      { unfold feqb. rewrite (fltb_fleb_false _ _ El), andb_false_r. reflexivity. }
      split; [|discriminate].
      assert (Fl : isfinite vl = true).
      { destruct H1 as [(-> & _)|(F & _)]; [destruct vr; discriminate|exact F]. }
      destruct H1 as [(-> & _)|(_ & I & M & ->)]; [discriminate|].
      right. split; [exact Fl|]. split; [apply in_sides; auto|]. split.
      + intros r x Hin. apply in_sides in Hin. destruct Hin as [Hin|Hin]; [apply (M _ _ Hin)|].
        destruct (fltb x vl) eqn:E; [|reflexivity]. pose proof (fltb_trans _ _ _ E El) as E2.
        destruct H2 as [(-> & _ & _ & H)|(_ & _ & H & _)]; rewrite (H _ _ Hin) in E2; discriminate.
      + rewrite count_sides, (count_lt_zero _ H2 El). lia.
    - destruct H2 as [(-> & -> & -> & H)|(F & I & M & ->)].
      + destruct H1 as [(-> & -> & -> & H')|(F' & I' & M' & ->)].
        * split; [|discriminate]. left. cbn. repeat (split; [reflexivity|]). intros r x Hin. apply in_sides in Hin.
          destruct Hin as [Hin|Hin]; eauto.
        * destruct (isfinite_lt _ F'). congruence.
      + assert (Hmin : forall r x, In (r, x) (sel all_rows a L) -> fltb x vr = false).
        { intros r x Hin. apply in_sides in Hin. destruct Hin as [Hin|Hin]; [|apply (M _ _ Hin)].
          destruct (fltb x vr) eqn:E; [|reflexivity]. exfalso.
          destruct (isfinite_lt _ F) as [Hv Hn].
          destruct H1 as [(-> & _ & _ & H')|(F' & I' & M' & ->)].
          - pose proof (fltb_trans _ _ _ E Hv). rewrite (H' _ _ Hin) in *. discriminate.
          - pose proof (M' _ _ Hin) as N. destruct (isfinite_lt _ F') as [_ Hn'].
            rewrite (fltb_false_trans x vl vr Hn' N El) in E. discriminate. }
        destruct (feqb vl vr) eqn:Ee.
        * pose proof (feqb_finite _ _ Ee) as ->.
          destruct H1 as [(-> & _)|(F' & I' & M' & ->)]; [discriminate|].
          split; [|intros _ _]; right; (split; [exact F|]); (split; [apply in_sides; auto|]); (split; [exact Hmin|apply eq_sym, count_sides]).
        * split; [|discriminate]. right. split; [exact F|]. split; [apply in_sides; auto|]. split; [exact Hmin|].
          rewrite count_sides. enough (count vr (sel (is_left a) a L) = 0) by lia.
          destruct (isfinite_lt _ F) as [Hv Hn].
          eapply count_lt_zero; [exact H1|]. destruct (fltb vr vl) eqn:E; [reflexivity|]. exfalso.
          unfold feqb in Ee. assert (Nl : isnan vl = false) by (destruct H1 as [(-> & _)|(F' & _)]; [reflexivity|apply (isfinite_lt _ F')]).
          rewrite (fltb_false_fleb vr vl), (fltb_false_fleb vl vr) in Ee by assumption. discriminate.
  Qed.

  Lemma frac_merge a b k n : (0 < k)%nat -> (0 < n)%nat ->
    (frac k (k + n) * frac a k + (1 - frac k (k + n)) * frac b n == frac (a + b) (k + n))%Q.
  Proof.
    intros Hk Hn. unfold frac. rewrite !Nat2Z.inj_add, !inject_Z_plus.
    assert (0 < inject_Z (Z.of_nat k))%Q by (change 0%Q with (inject_Z 0); rewrite <- Zlt_Qlt; lia).
    assert (0 < inject_Z (Z.of_nat n))%Q by (change 0%Q with (inject_Z 0); rewrite <- Zlt_Qlt; lia).
    assert (0 < inject_Z (Z.of_nat k) + inject_Z (Z.of_nat n))%Q
      by (rewrite <- inject_Z_plus; change 0%Q with (inject_Z 0); rewrite <- Zlt_Qlt; lia).
    field. repeat split; intro E; rewrite E in *; discriminate.
  Qed.
End PResProb.

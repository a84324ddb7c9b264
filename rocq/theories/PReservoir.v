(** * PReservoir: proofs about MatrixProfileLRReservoir. *)
From Coq Require Import QArith.
From Verif Require Import Np NpFacts Mat SLog PLog MProfile PProfile MRand SRand PRand MReservoir SReservoir.
Set Implicit Arguments.
Open Scope nat_scope.

Section PReservoir.
  Context {A : Type} {NA : NumOps A} {OL : OrdLaws A}.
  Notation num := (Np.num A).

  Lemma length_where {T} m (a b : list T) : length a = length m -> length b = length m -> length (where_ m a b) = length m.
  Proof. intros H1 H2. unfold where_. rewrite !length_zip_with. lia. Qed.
  Lemma nth_where {T} m (a b : list T) p (u : bool) x y : nth_error m p = Some u -> nth_error a p = Some x -> nth_error b p = Some y ->
    nth_error (where_ m a b) p = Some (if u then x else y).
  Proof. intros H1 H2 H3. unfold where_. rewrite !nth_error_zip_with, H1, H2, H3. destruct u; reflexivity. Qed.

  (** ** The vectorised draws *)
  Lemma draws_safe eq : forall nm didx mpi, length nm = length eq -> length didx = length eq -> length mpi = length eq ->
    safe (draws eq nm didx mpi) (fun l => length l = length mpi /\
      forall p, nth_error l p = nth_error mpi p \/ (nth_error eq p = Some true /\ nth_error l p = nth_error didx p)).
  Proof.
    induction eq as [|e eq IH]; intros [|n nm] [|d didx] [|i mpi] L1 L2 L3; try discriminate.
    - simpl. split; [reflexivity|]. left. reflexivity.
    - injection L1 as L1. injection L2 as L2. injection L3 as L3. cbn [draws].
      assert (H : forall x, (x = i \/ (e = true /\ x = d)) -> safe (rbind (draws eq nm didx mpi) (fun l => Ret (x :: l)))
        (fun l => length l = length (i :: mpi) /\
      forall p, nth_error l p = nth_error (i :: mpi) p \/ (nth_error (e :: eq) p = Some true /\ nth_error l p = nth_error (d :: didx) p))).
      { intros x Hx. eapply safe_bind; [apply IH; assumption|]. intros l [Hl Hp]. cbn [safe]. split; [simpl; congruence|].
        intros [|p]; simpl; [|apply Hp]. destruct Hx as [->|[-> ->]]; auto. }
      destruct e; [|apply H; auto]. cbn [safe]. intros []; apply H; auto.
  Qed.

  Lemma draws_expect eq : forall nm didx mpi p g, length nm = length eq -> length didx = length eq -> length mpi = length eq ->
    (expect (draws eq nm didx mpi) (fun l => g (nth_error l p)) ==
      match nth_error eq p, nth_error nm p with
      | Some true, Some n => frac 1 n * g (nth_error didx p) + (1 - frac 1 n) * g (nth_error mpi p)
      | _, _ => g (nth_error mpi p)
      end)%Q.
  Proof.
    induction eq as [|e eq IH]; intros [|n nm] [|d didx] [|i mpi] p g L1 L2 L3; try discriminate.
    - destruct p; simpl; reflexivity.
    - injection L1 as L1. injection L2 as L2. injection L3 as L3. cbn [draws].
      pose proof (draws_safe eq nm didx mpi L1 L2 L3) as Hs.
      assert (H : forall x, (expect (rbind (draws eq nm didx mpi) (fun l => Ret (x :: l))) (fun l => g (nth_error l p)) ==
         match p with O => g (Some x) | S p' => expect (draws eq nm didx mpi) (fun l => g (nth_error l p')) end)%Q).
      { intro x. rewrite expect_bind. cbn [expect]. destruct p as [|p]; simpl; [|reflexivity].
        eapply expect_const; exact Hs. }
      destruct e; cbn [expect]; rewrite ?H; destruct p as [|p]; cbn [nth_error]; rewrite ?IH by assumption; try reflexivity.
      ring.
  Qed.

  (** Effect of one delivered cell on one entry *)
  Definition rres (v : num) (i : Z) (k : nat) (r : Z) (x v' : num) (i' : Z) (k' : nat) : Prop :=
    (fltb x v = true /\ v' = x /\ i' = r /\ k' = 1) \/
    (fltb x v = false /\ feqb x v && isfinite x = true /\ v' = v /\ (i' = r \/ i' = i) /\ k' = S k) \/
    (fltb x v = false /\ feqb x v && isfinite x = false /\ v' = v /\ i' = i /\ k' = k).

  Definition ent3 (mp : list num) (mpi : list Z) (nm : list nat) (c : nat) : option (num * Z * nat) :=
    match nth_error mp c, nth_error mpi c, nth_error nm c with Some v, Some i, Some n => Some (v, i, n) | _, _, _ => None end.
  Lemma ent3_inv mp mpi nm c v i n : ent3 mp mpi nm c = Some (v, i, n) ->
    nth_error mp c = Some v /\ nth_error mpi c = Some i /\ nth_error nm c = Some n.
  Proof.
    unfold ent3. destruct (nth_error mp c), (nth_error mpi c), (nth_error nm c); try discriminate.
    intros [= -> -> ->]. auto.
  Qed.
  Lemma ent3_intro mp mpi nm c v i n : nth_error mp c = Some v -> nth_error mpi c = Some i -> nth_error nm c = Some n ->
    ent3 mp mpi nm c = Some (v, i, n).
  Proof. unfold ent3. intros -> -> ->. reflexivity. Qed.

  (** Slice [lo, lo + length dist) of the arrays *)
  Section Upd.
    Variables (dist : list num) (idx : list Z) (mp : list num) (mpi : list Z) (nm : list nat) (lo : nat).
    Hypothesis L0 : length idx = length dist.
    Hypothesis L1 : lo + length dist <= length mp.
    Hypothesis L2 : length mpi = length mp.
    Hypothesis L3 : length nm = length mp.
    Let hi := lo + length dist.
    Let better := zip_with fltb dist (lslice mp lo hi).
    Let equal := zip_with (fun d m => feqb d m && isfinite d) dist (lslice mp lo hi).
    Let mp1 := where_ better dist (lslice mp lo hi).
    Let mpi1 := where_ better idx (lslice mpi lo hi).
    Let nm1 := where_ better (repeat 1 (length (lslice nm lo hi))) (lslice nm lo hi).
    Let nm2 := where_ equal (map S nm1) nm1.

    Lemma upd_lengths : length (lslice mp lo hi) = length dist /\ length (lslice mpi lo hi) = length dist /\
      length (lslice nm lo hi) = length dist /\ length better = length dist /\ length equal = length dist /\
      length mp1 = length dist /\ length mpi1 = length dist /\ length nm1 = length dist /\ length nm2 = length dist.
    Proof.
      assert (E1 : length (lslice mp lo hi) = length dist) by (rewrite length_lslice; unfold hi; lia).
      assert (E2 : length (lslice mpi lo hi) = length dist) by (rewrite length_lslice; unfold hi; lia).
      assert (E3 : length (lslice nm lo hi) = length dist) by (rewrite length_lslice; unfold hi; lia).
      assert (E4 : length better = length dist) by (unfold better; rewrite length_zip_with; lia).
      assert (E5 : length equal = length dist) by (unfold equal; rewrite length_zip_with; lia).
      assert (E6 : length nm1 = length dist).
      { unfold nm1. rewrite length_where; rewrite ?repeat_length, ?E4; auto. }
      repeat (split; [assumption|]).
      split; [unfold mp1; rewrite length_where; rewrite ?E4; auto|].
      split; [unfold mpi1; rewrite length_where; rewrite ?E4; auto|].
      split; [exact E6|]. unfold nm2. rewrite length_where; rewrite ?map_length, ?E5; auto.
    Qed.

    Lemma update_res_at_eq : update_res_at dist idx mp mpi nm lo hi =
      rbind (rbind (draws equal nm2 idx mpi1) (fun mpi2 => Ret (mp1, mpi2, nm2)))
        (fun r => let '(a, b, c) := r in Ret (splice mp lo a, splice mpi lo b, splice nm lo c)).
    Proof.
      unfold update_res_at, update_res. destruct upd_lengths as (E1 & E2 & E3 & _).
      rewrite E1, E2, E3, L0, Nat.eqb_refl. cbn [andb]. fold better. fold equal.
      unfold nm2, nm1, mp1, mpi1. rewrite E3. reflexivity.
    Qed.

    (** the masks and counts at one position *)
    Lemma upd_pos p x r v i k : p < length dist -> nth_error dist p = Some x -> nth_error idx p = Some r ->
      nth_error mp (lo + p) = Some v -> nth_error mpi (lo + p) = Some i -> nth_error nm (lo + p) = Some k ->
      nth_error equal p = Some (feqb x v && isfinite x) /\
      nth_error mp1 p = Some (if fltb x v then x else v) /\
      nth_error mpi1 p = Some (if fltb x v then r else i) /\
      nth_error nm2 p = Some (if feqb x v && isfinite x then S (if fltb x v then 1 else k) else if fltb x v then 1 else k).
    Proof.
      intros Hp Hx Hr Hv Hi Hk. destruct upd_lengths as (E1 & E2 & E3 & _).
      assert (S1 : nth_error (lslice mp lo hi) p = Some v).
      { rewrite nth_error_lslice. unfold hi. destruct (Nat.ltb_spec p (lo + length dist - lo)); [exact Hv|lia]. }
      assert (S2 : nth_error (lslice mpi lo hi) p = Some i).
      { rewrite nth_error_lslice. unfold hi. destruct (Nat.ltb_spec p (lo + length dist - lo)); [exact Hi|lia]. }
      assert (S3 : nth_error (lslice nm lo hi) p = Some k).
      { rewrite nth_error_lslice. unfold hi. destruct (Nat.ltb_spec p (lo + length dist - lo)); [exact Hk|lia]. }
      assert (S4 : nth_error better p = Some (fltb x v)) by (unfold better; rewrite nth_error_zip_with, Hx, S1; reflexivity).
      assert (S5 : nth_error equal p = Some (feqb x v && isfinite x)) by (unfold equal; rewrite nth_error_zip_with, Hx, S1; reflexivity).
      assert (S6 : nth_error nm1 p = Some (if fltb x v then 1 else k)).
      { unfold nm1. apply nth_where; auto. rewrite nth_error_repeat', E3. destruct (Nat.ltb_spec p (length dist)); [reflexivity|lia]. }
      split; [exact S5|]. split; [apply nth_where; assumption|]. split; [apply nth_where; assumption|].
      unfold nm2. apply nth_where; auto. rewrite nth_error_map, S6. reflexivity.
    Qed.

    Lemma update_res_at_safe :
      safe (update_res_at dist idx mp mpi nm lo hi) (fun r => let '(mp', mpi', nm') := r in
        length mp' = length mp /\ length mpi' = length mp /\ length nm' = length mp /\
        forall c v i k, ent3 mp mpi nm c = Some (v, i, k) ->
          if (lo <=? c) && (c <? hi) then
             exists x r v' i' k', nth_error dist (c - lo) = Some x /\ nth_error idx (c - lo) = Some r /\
               ent3 mp' mpi' nm' c = Some (v', i', k') /\ rres v i k r x v' i' k'
          else ent3 mp' mpi' nm' c = Some (v, i, k)).
    Proof.
      rewrite update_res_at_eq. destruct upd_lengths as (E1 & E2 & E3 & E4 & E5 & E6 & E7 & E8 & E9).
      eapply safe_bind; [eapply safe_bind; [apply (draws_safe equal nm2 idx mpi1); congruence|]|].
      { intros l Hl. cbn [safe]. instantiate (1 := fun r => let '(a, b, c) := r in a = mp1 /\ c = nm2 /\ length b = length mpi1 /\
          forall p, nth_error b p = nth_error mpi1 p \/ (nth_error equal p = Some true /\ nth_error b p = nth_error idx p)).
        cbn beta iota. auto. }
      intros [[a b] c0] (-> & -> & Lb & Hb). cbn [safe].
      split; [apply length_splice; lia|]. split; [rewrite length_splice; lia|]. split; [rewrite length_splice; lia|].
      intros c v i k Hc. apply ent3_inv in Hc. destruct Hc as (Hv & Hi & Hk).
      unfold ent3. rewrite !nth_error_splice by lia.
      destruct (Nat.leb_spec lo c); destruct (Nat.ltb_spec c lo); try lia; cbn [andb]; [|rewrite Hv, Hi, Hk; reflexivity].
      rewrite Lb, E6, E7, E9. fold hi. destruct (Nat.ltb_spec c hi) as [Hch|Hch]; [|rewrite Hv, Hi, Hk; reflexivity].
      unfold hi in Hch.
      destruct (@nth_error_lt_some _ dist (c - lo)) as [x Hx]; [lia|].
      destruct (@nth_error_lt_some _ idx (c - lo)) as [r Hr]; [lia|].
      assert (Ec : lo + (c - lo) = c) by lia.
      destruct (@upd_pos (c - lo) x r v i k) as (P1 & P2 & P3 & P4); rewrite ?Ec; auto; [lia|].
      destruct (Hb (c - lo)) as [Hb'|[Hb' Hb'']].
      - exists x, r. do 3 eexists. split; [exact Hx|]. split; [exact Hr|]. rewrite P2, P4, Hb', P3. split; [reflexivity|].
        unfold rres. destruct (fltb x v) eqn:El.
        + left. assert (feqb x v = false) as ->; [|auto]. unfold feqb. rewrite (fltb_fleb_false _ _ El), andb_false_r. reflexivity.
        + right. destruct (feqb x v && isfinite x); [left|right]; auto 10.
      - exists x, r. do 3 eexists. split; [exact Hx|]. split; [exact Hr|]. rewrite P2, P4, Hb'', Hr. split; [reflexivity|].
        unfold rres. rewrite P1 in Hb'. injection Hb' as Hb'.
        destruct (fltb x v) eqn:El.
        + exfalso. apply andb_true_iff in Hb'. destruct Hb' as [Hb' _]. unfold feqb in Hb'.
          rewrite (fltb_fleb_false _ _ El), andb_false_r in Hb'. discriminate.
        + right. left. rewrite Hb'. auto 10.
    Qed.

    Lemma update_res_at_expect c x r v i k g : lo <= c -> c < hi ->
      nth_error dist (c - lo) = Some x -> nth_error idx (c - lo) = Some r -> ent3 mp mpi nm c = Some (v, i, k) ->
      (expect (update_res_at dist idx mp mpi nm lo hi) (fun t => let '(mp', mpi', nm') := t in g (nth_error mpi' c)) ==
       if fltb x v then g (Some r)
       else if feqb x v && isfinite x then frac 1 (S k) * g (Some r) + (1 - frac 1 (S k)) * g (Some i)
       else g (Some i))%Q.
    Proof.
      intros H1 H2 Hx Hr Hc. apply ent3_inv in Hc. destruct Hc as (Hv & Hi & Hk).
      rewrite update_res_at_eq, !expect_bind. destruct upd_lengths as (E1 & E2 & E3 & E4 & E5 & E6 & E7 & E8 & E9).
      cbn [rbind expect]. unfold hi in H2.
      assert (Ec : lo + (c - lo) = c) by lia.
      destruct (@upd_pos (c - lo) x r v i k) as (P1 & P2 & P3 & P4); rewrite ?Ec; auto; [lia|].
      rewrite (@expect_ext _ _ (fun l => length l = length mpi1 /\ True) _ (fun l => g (nth_error l (c - lo)))).
      - rewrite (draws_expect equal nm2 idx mpi1) by congruence. rewrite P1, P4, P3, Hr.
        destruct (fltb x v) eqn:El.
        + assert (feqb x v = false) as ->; [|reflexivity]. unfold feqb. rewrite (fltb_fleb_false _ _ El), andb_false_r. reflexivity.
        + destruct (feqb x v && isfinite x); reflexivity.
      - eapply safe_impl; [|apply (draws_safe equal nm2 idx mpi1); congruence]. intros l [Hl _]. auto.
      - intros l [Hl _]. rewrite nth_error_splice by lia. destruct (Nat.ltb_spec c lo); [lia|].
        rewrite Hl, E7. destruct (Nat.ltb_spec c (lo + length dist)); [reflexivity|lia].
    Qed.

    Lemma update_res_at_other c g : c < lo \/ hi <= c ->
      (expect (update_res_at dist idx mp mpi nm lo hi) (fun t => let '(mp', mpi', nm') := t in g (nth_error mpi' c)) ==
       g (nth_error mpi c))%Q.
    Proof.
      intros Hc. rewrite update_res_at_eq, !expect_bind. destruct upd_lengths as (E1 & E2 & E3 & E4 & E5 & E6 & E7 & E8 & E9).
      cbn [rbind expect]. unfold hi in Hc.
      rewrite (@expect_ext _ _ (fun l => length l = length mpi1 /\ True) _ (fun l => g (nth_error mpi c))).
      - eapply expect_const. apply (draws_safe equal nm2 idx mpi1); congruence.
      - eapply safe_impl; [|apply (draws_safe equal nm2 idx mpi1); congruence]. intros l [Hl _]. auto.
      - intros l [Hl _]. rewrite nth_error_splice by lia. rewrite Hl, E7.
        destruct (Nat.ltb_spec c lo); [reflexivity|]. destruct (Nat.ltb_spec c (lo + length dist)); [lia|reflexivity].
    Qed.
  End Upd.

  (** ** The invariant of one entry *)
  Lemma count_app v l1 l2 : count v (l1 ++ l2) = count v l1 + count v l2.
  Proof. unfold count. rewrite filter_app, app_length. reflexivity. Qed.
  Lemma count_row_app r v l1 l2 : count_row r v (l1 ++ l2) = count_row r v l1 + count_row r v l2.
  Proof. unfold count_row. rewrite filter_app, app_length. reflexivity. Qed.
  Lemma count_zero v cells : (forall r x, In (r, x) cells -> feqb x v = false) -> count v cells = 0.
  Proof.
    intro H. unfold count. induction cells as [|[r x] cells IH]; [reflexivity|]. simpl.
    rewrite (H r x (or_introl eq_refl)). apply IH. intros r' x' Hi. apply (H r' x'). right. exact Hi.
  Qed.
  Lemma count_row_le r v cells : count_row r v cells <= count v cells.
  Proof.
    unfold count_row, count. induction cells as [|[r' x] cells IH]; [reflexivity|]. simpl.
    destruct (feqb x v); simpl; [destruct (r' =? r)%Z; simpl; lia|exact IH].
  Qed.
  Lemma count_pos v i cells : In (i, v) cells -> isnan v = false -> 0 < count v cells.
  Proof.
    intros Hi Hn. unfold count. induction cells as [|[r x] cells IH]; [destruct Hi|]. simpl.
    destruct Hi as [[= -> ->]|Hi].
    - assert (feqb v v = true) as -> by (apply feqb_eq; auto). simpl. lia.
    - destruct (feqb x v); simpl; [lia|apply IH, Hi].
  Qed.

  Lemma feqb_finite x v : feqb x v = true -> x = v.
  Proof. intro H. apply feqb_eq in H. apply H. Qed.

  Lemma isfinite_lt (x : num) : isfinite x = true -> fltb x PInf = true /\ isnan x = false.
  Proof. destruct x; simpl; try discriminate; auto. Qed.

  Lemma res_ok_step cells v i k r x v' i' k' : res_ok cells v i k -> x <> NInf ->
    rres v i k r x v' i' k' -> res_ok (cells ++ [(r, x)]) v' i' k'.
  Proof.
    intros H Hx [(El & -> & -> & ->)|[(El & Ee & -> & Hi & ->)|(El & Ee & -> & -> & ->)]].
    - right. assert (Fx : isfinite x = true).
      { destruct x; auto; try (destruct v; discriminate). }
      destruct (isfinite_lt x Fx) as [Lx Nx].
      assert (Hlt : forall r0 x0, In (r0, x0) cells -> fltb x x0 = true \/ isnan x0 = true).
      { intros r0 x0 Hi. destruct (isnan x0) eqn:N0; [auto|]. left.
        destruct H as [(-> & _ & _ & H)|(Fv & _ & H & _)].
        - specialize (H _ _ Hi). destruct x0; try discriminate. exact Lx.
        - specialize (H _ _ Hi). destruct (isfinite_lt v Fv) as [_ Nv].
          eapply fltb_fle_trans; [exact El|]. apply fltb_false_fleb; auto. }
      split; [exact Fx|]. split; [apply in_or_app; right; left; reflexivity|]. split.
      + intros r0 x0 Hi. apply in_app_or in Hi. destruct Hi as [Hi|[[= <- <-]|[]]]; [|apply fltb_irrefl].
        destruct (Hlt _ _ Hi) as [Hl|Hl]; [apply fltb_asym, Hl|destruct x0; try discriminate; reflexivity].
      + rewrite count_app. rewrite count_zero.
        * unfold count. simpl. assert (feqb x x = true) as -> by (apply feqb_eq; auto). reflexivity.
        * intros r0 x0 Hi. destruct (feqb x0 x) eqn:E; [|reflexivity]. apply feqb_finite in E. subst x0.
          destruct (Hlt _ _ Hi) as [Hl|Hl]; [rewrite fltb_irrefl in Hl; discriminate|congruence].
    - apply andb_true_iff in Ee. destruct Ee as [Ee Fx]. pose proof (feqb_finite _ _ Ee) as ->.
      destruct H as [(-> & _)|(Fv & I & M & ->)]; [discriminate|]. right. split; [exact Fv|].
      split; [|split].
      + destruct Hi as [->| ->]; apply in_or_app; [right; left; reflexivity|left; exact I].
      + intros r0 x0 Hi0. apply in_app_or in Hi0. destruct Hi0 as [Hi0|[[= <- <-]|[]]]; [eapply M; exact Hi0|apply fltb_irrefl].
      + rewrite count_app. unfold count at 3. simpl. rewrite Ee. simpl. lia.
    - destruct H as [(-> & -> & -> & H)|(Fv & I & M & ->)].
      + left. repeat (split; [reflexivity|]). intros r0 x0 Hi. apply in_app_or in Hi.
        destruct Hi as [Hi|[[= <- <-]|[]]]; [eapply H; exact Hi|exact El].
      + right. split; [exact Fv|]. split; [apply in_or_app; left; exact I|]. split.
        * intros r0 x0 Hi. apply in_app_or in Hi. destruct Hi as [Hi|[[= <- <-]|[]]]; [eapply M; exact Hi|exact El].
        * rewrite count_app. unfold count at 3. simpl.
          destruct (feqb x v) eqn:E; [|simpl; lia]. pose proof (feqb_finite _ _ E) as ->. rewrite Fv in Ee. discriminate.
  Qed.

  (** ** One side of the profile *)
  Definition rside (P : Z -> Z -> bool) (w : nat) (es : list (event num)) mp mpi nm : Prop :=
    length mp = w /\ length mpi = w /\ length nm = w /\
    forall c, c < w -> exists v i n, ent3 mp mpi nm c = Some (v, i, n) /\
      res_ok (sel (P (Z.of_nat c)) (Z.of_nat c) (log es)) v i n.

  Lemma rside_skip P w es e mp mpi nm : rside P w es mp mpi nm ->
    (forall a, sel (P a) a (event_cells (qshift es) (sshift es) e) = []) -> rside P w (es ++ [e]) mp mpi nm.
  Proof.
    intros (H1 & H2 & H3 & H4) He. repeat (split; [assumption|]). intros c Hc.
    rewrite log_snoc, sel_app, He, app_nil_r. apply H4, Hc.
  Qed.

  (** The cell of diagonal [d] in column [c], on the side the diagonal is on *)
  Definition diag_cell (d : Z) (vals : list num) (c : nat) : list (Z * num) :=
    let lo := Z.to_nat (Z.max 0 d) in
    if (lo <=? c) && (c <? lo + length vals) then
      match nth_error vals (c - lo) with
      | Some x => [((Z.max 0 (- d) + Z.of_nat (c - lo))%Z, x)] | None => [] end
    else [].

  Lemma sel_diag_cell (P : Z -> Z -> bool) d vals c :
    (P = is_left /\ (0 <= d)%Z \/ P = is_right /\ (d < 0)%Z) ->
    sel (P (Z.of_nat c)) (Z.of_nat c) (diag_cells 0 0 d vals) = diag_cell d vals c.
  Proof.
    intro HP. rewrite sel_diag. cbv zeta. unfold diag_cell. set (lo := Z.to_nat (Z.max 0 d)).
    destruct (Nat.leb_spec lo c); destruct (Z.leb_spec 0 (Z.of_nat c - 0 - Z.max 0 d)); try lia; cbn [andb]; [|reflexivity].
    replace (Z.to_nat (Z.of_nat c - 0 - Z.max 0 d)) with (c - lo) by lia.
    destruct (Nat.ltb_spec c (lo + length vals)).
    - destruct (@nth_error_lt_some _ vals (c - lo)) as [x Hx]; [lia|]. rewrite Hx.
      replace (0 + Z.max 0 (- d) + (Z.of_nat c - 0 - Z.max 0 d))%Z with (Z.max 0 (- d) + Z.of_nat (c - lo))%Z by lia.
      assert (E : P (Z.of_nat c)%Z (Z.max 0 (- d) + Z.of_nat (c - lo))%Z = true).
      { destruct HP as [[-> HP]|[-> HP]]; unfold is_left, is_right;
          destruct (Z.leb_spec (Z.max 0 (- d) + Z.of_nat (c - lo)) (Z.of_nat c)); auto; lia. }
      rewrite E. reflexivity.
    - rewrite nth_error_none_ge by lia. reflexivity.
  Qed.

  Lemma rside_diag P w es d vals rest idx mp mpi nm mp' mpi' nm' :
    Forall no_shift es -> rside P w es mp mpi nm ->
    (P = is_left /\ (0 <= d)%Z \/ P = is_right /\ (d < 0)%Z) -> ~ In NInf vals ->
    length idx = length vals ->
    (forall k, k < length vals -> nth_error idx k = Some (Z.max 0 (- d) + Z.of_nat k)%Z) ->
    length mp' = length mp -> length mpi' = length mp -> length nm' = length mp ->
    let lo := Z.to_nat (Z.max 0 d) in
    (forall c v i k, ent3 mp mpi nm c = Some (v, i, k) ->
          if (lo <=? c) && (c <? lo + length vals) then
             exists x r v' i' k', nth_error vals (c - lo) = Some x /\ nth_error idx (c - lo) = Some r /\
               ent3 mp' mpi' nm' c = Some (v', i', k') /\ rres v i k r x v' i' k'
          else ent3 mp' mpi' nm' c = Some (v, i, k)) ->
    rside P w (es ++ [EDiag d (vals :: rest)]) mp' mpi' nm'.
  Proof.
    intros Hns (H1 & H2 & H3 & H4) HP Hni Hl Hidx L1 L2 L3 lo Hu. do 3 (split; [congruence|]).
    destruct (no_shift_qs Hns) as [Q S]. intros c Hc. destruct (H4 c Hc) as (v & i & k & Hb & HB).
    rewrite log_snoc, sel_app. cbn [event_cells]. rewrite Q, S, (sel_diag_cell _ _ HP).
    specialize (Hu c v i k Hb). unfold diag_cell. fold lo.
    destruct ((lo <=? c) && (c <? lo + length vals)) eqn:Eb; [|exists v, i, k; rewrite app_nil_r; auto].
    destruct Hu as (x & r & v' & i' & k' & Hx & Hr & He & HR). rewrite Hx.
    apply andb_true_iff in Eb. destruct Eb as [_ Eb]. apply Nat.ltb_lt in Eb.
    assert (r = (Z.max 0 (- d) + Z.of_nat (c - lo))%Z) as ->.
    { rewrite Hidx in Hr; [congruence|]. apply nth_error_some_lt in Hx. exact Hx. }
    exists v', i', k'. split; [exact He|]. eapply res_ok_step; [exact HB| |exact HR].
    intros ->. apply Hni. eapply nth_error_In; exact Hx.
  Qed.

  Definition mrs_ok (h w : nat) (es : list (event num)) (s : mrs) : Prop :=
    r_range s = arange 0 (Nat.max w h) /\
    rside is_left w es (r_left s) (r_ileft s) (r_nleft s) /\
    rside is_right w es (r_right s) (r_iright s) (r_nright s).

  (** Lengths of the arrays *)
  Definition mrs_len (w : nat) (s : @mrs A) : Prop :=
    length (r_left s) = w /\ length (r_ileft s) = w /\ length (r_nleft s) = w /\
    length (r_right s) = w /\ length (r_iright s) = w /\ length (r_nright s) = w.
  Definition mrs_shape (h w : nat) (s : @mrs A) : Prop := r_range s = arange 0 (Nat.max w h) /\ mrs_len w s.
  Lemma mrs_ok_shape h w es s : mrs_ok h w es s -> mrs_shape h w s.
  Proof. intros (H & (A1 & A2 & A3 & _) & (B1 & B2 & B3 & _)). split; [exact H|]. repeat split; assumption. Qed.

  Lemma mrs_init_ok h w : mrs_ok h w [] (mrs_init h w).
  Proof.
    assert (S0 : forall P, rside P w [] (repeat PInf w) (repeat (-1)%Z w) (repeat 0 w)).
    { intro P. do 3 (split; [apply repeat_length|]). intros c Hc. exists PInf, (-1)%Z, 0.
      unfold ent3. rewrite !nth_error_repeat'. destruct (Nat.ltb_spec c w); [|lia]. split; [reflexivity|].
      left. repeat (split; [reflexivity|]). intros ? ? []. }
    split; [reflexivity|]. split; apply S0.
  Qed.

  Lemma mrs_diag_safe h w es s d vs : Forall no_shift es -> mrs_ok h w es s -> fits h w (EDiag d vs) -> no_ninf (EDiag d vs) ->
    safe (mrs_diag s d vs) (mrs_ok h w (es ++ [EDiag d vs])).
  Proof.
    intros Hn (Hr & Hl & Hri) (Hd & vals & rest & -> & Hv1 & Hv2) Hni.
    specialize (Hni vals (or_introl eq_refl)).
    destruct (no_shift_qs Hn) as [Q S]. unfold mrs_diag. cbn [row0 lift rbind]. rewrite Hr.
    destruct (Z.leb_spec 0 d) as [Hpos|Hneg].
    - replace (Z.to_nat d) with (Z.to_nat (Z.max 0 d)) by lia.
      assert (Li : length (lslice (arange 0 (Nat.max w h)) 0 (length vals)) = length vals)
        by (rewrite length_lslice, length_arange; lia).
      pose proof Hl as (L1 & L2 & L3 & _).
      eapply safe_bind; [eapply update_res_at_safe; [exact Li|lia|lia|lia]|].
      intros [[a b] c] (M1 & M2 & M3 & M4). cbn [safe]. split; [reflexivity|].
      cbn [r_left r_ileft r_nleft r_right r_iright r_nright]. split.
      + eapply rside_diag; [exact Hn|exact Hl|left; auto|exact Hni|exact Li| |exact M1|exact M2|exact M3|exact M4].
        intros k Hk. change (length vals) with (0 + length vals). rewrite range_slice by lia. f_equal; lia.
      + apply rside_skip; [exact Hri|]. intro a0. cbn [event_cells]. apply diag_sides. rewrite Q, S. lia.
    - set (n := Z.to_nat (- d)).
      assert (Li : length (lslice (arange 0 (Nat.max w h)) n (n + length vals)) = length vals)
        by (rewrite length_lslice, length_arange; lia).
      pose proof Hri as (L1 & L2 & L3 & _).
      eapply safe_bind; [apply (@update_res_at_safe vals _ (r_right s) (r_iright s) (r_nright s) 0 Li); lia|].
      intros [[a b] c] (M1 & M2 & M3 & M4). cbn [safe]. split; [reflexivity|].
      cbn [r_left r_ileft r_nleft r_right r_iright r_nright]. split.
      + apply rside_skip; [exact Hl|]. intro a0. cbn [event_cells]. apply diag_sides. rewrite Q, S. lia.
      + eapply rside_diag; [exact Hn|exact Hri|right; auto|exact Hni|exact Li| |exact M1|exact M2|exact M3|].
        * intros k Hk. rewrite range_slice by lia. f_equal; lia.
        * replace (Z.to_nat (Z.max 0 d)) with 0 by lia. exact M4.
  Qed.

  Lemma mrs_run_safe h w es : Forall is_diag es -> Forall (fits h w) es -> Forall no_ninf es ->
    safe (mrs_run (mrs_init h w) es) (mrs_ok h w es).
  Proof.
    intros Hd Hf Hni.
    assert (Hn : Forall no_shift es) by (eapply Forall_impl; [|exact Hd]; intros []; simpl; tauto).
    induction es as [|e es IH] using rev_ind.
    - apply mrs_init_ok.
    - apply Forall_app in Hd, Hf, Hn, Hni. destruct Hd as [Hd He], Hf as [Hf Hfe], Hn as [Hn _], Hni as [Hni Hne].
      apply Forall_inv in He, Hfe, Hne. unfold mrs_run. apply rfold_app_safe.
      eapply safe_bind; [apply IH; assumption|]. intros s Hs.
      destruct e as [d vs| | |]; simpl in He; try contradiction. apply mrs_diag_safe; assumption.
  Qed.
End PReservoir.

(** * PShift: proofs about ShiftingMatrixProfileLR. *)
From Verif Require Import Np NpFacts Mat MRing PRing PFullRb SLog PLog MProfile PProfile.
From Coq Require Import QArith.
Set Implicit Arguments.
Open Scope nat_scope.

Section PShift.
  Context {A : Type} {NA : NumOps A} {OL : OrdLaws A}.
  Notation num := (Np.num A).

  Record smp_ok (h w : nat) (es : list (event num)) (s : smp) : Prop := {
    k_ss : s_ss s = sshift es;
    k_qs : s_qs s = qshift es;
    k_range : full_rb (Nat.max w h) (s_range s);
    k_view : rb_view (s_range s) = arange (qshift es) (Nat.max w h);
    k_l : full_rb w (s_left s);
    k_il : full_rb w (s_ileft s);
    k_r : full_rb w (s_right s);
    k_ir : full_rb w (s_iright s);
    k_left : side_ok is_left w es (rb_view (s_left s)) (rb_view (s_ileft s));
    k_right : side_ok is_right w es (rb_view (s_right s)) (rb_view (s_iright s))
  }.

  Lemma smp_init_ok memn memz sf h w : (1 <= sf)%Q -> (sf <= 2)%Q -> 0 < w ->
    exists s, smp_init memn memz sf h w = Ok s /\ smp_ok h w [] s.
  Proof.
    intros H1 H2 Hw. unfold smp_init. rewrite (proj2 (Qle_bool_iff 1 sf) H1). cbn [negb].
    unfold mplr_init. cbn [mp_range mp_left mp_ileft mp_right mp_iright].
    destruct (@full_new Z memz (arange 0 (Nat.max w h)) sf H1 H2) as (b0 & E0 & F0 & V0); [rewrite length_arange; lia|].
    destruct (@full_new num memn (repeat PInf w) sf H1 H2) as (b1 & E1 & F1 & V1); [rewrite repeat_length; lia|].
    destruct (@full_new Z memz (repeat (-1)%Z w) sf H1 H2) as (b2 & E2 & F2 & V2); [rewrite repeat_length; lia|].
    rewrite E0. cbn [bind]. rewrite E1. cbn [bind]. rewrite E2. cbn [bind].
    rewrite length_arange in F0. rewrite repeat_length in F1, F2.
    eexists; split; [reflexivity|].
    destruct (@mplr_init_ok _ _ h w) as (_ & S1 & S2).
    constructor; cbn [s_ss s_qs s_range s_left s_ileft s_right s_iright]; auto; rewrite ?V1, ?V2; assumption.
  Qed.

  (** One side: the update through the ring buffer views *)
  Lemma update_rb_ok w dist idx (mp : rb num) (mpi : rb Z) lo :
    full_rb w mp -> full_rb w mpi -> length idx = length dist -> lo + length dist <= w ->
    exists mp' mpi', update_rb dist idx mp mpi lo (lo + length dist) = Ok (mp', mpi') /\
      full_rb w mp' /\ full_rb w mpi' /\
      length (rb_view mp') = length (rb_view mp) /\ length (rb_view mpi') = length (rb_view mp) /\
      forall c b, ent (rb_view mp) (rb_view mpi) c = Some b ->
        ent (rb_view mp') (rb_view mpi') c = Some (if (lo <=? c) && (c <? lo + length dist) then
             match nth_error idx (c - lo), nth_error dist (c - lo) with
             | Some r, Some x => bstep b (r, x) | _, _ => b end else b).
  Proof.
    intros F1 F2 H1 H2. unfold update_rb.
    destruct (@update_at_ok A _ dist idx (rb_view mp) (rb_view mpi) lo H1) as (mp' & mpi' & E & L1 & L2 & H).
    - rewrite (f_len F1). exact H2.
    - rewrite (f_len F1), (f_len F2). reflexivity.
    - rewrite E. cbn [bind fst snd].
      destruct (@full_set_view _ w mp mp' F1) as [G1 V1]; [rewrite L1; apply F1|].
      destruct (@full_set_view _ w mpi mpi' F2) as [G2 V2]; [rewrite L2; apply F1|].
      eexists; eexists; split; [reflexivity|]. rewrite V1, V2. repeat (split; [assumption|]). exact H.
  Qed.

  Lemma smp_diag_ok h w es s d vs : smp_ok h w es s -> fits h w (EDiag d vs) ->
    exists s', smp_diag s d vs = Ok s' /\ smp_ok h w (es ++ [EDiag d vs]) s'.
  Proof.
    intros Hs (Hd & vals & rest & -> & Hv1 & Hv2).
    destruct Hs as [Kss Kqs Kr Kv Kl Kil Krr Kir Kleft Kright].
    unfold smp_diag. cbn [row0 bind]. rewrite Kss, Kqs, Kv.
    assert (SS : sshift (es ++ [EDiag d (vals :: rest)]) = sshift es) by (rewrite sshift_app; simpl; lia).
    assert (QQ : qshift (es ++ [EDiag d (vals :: rest)]) = qshift es) by (rewrite qshift_app; simpl; lia).
    set (L := Nat.max w h) in *.
    (* the index slice and position, for both signs of the diagonal *)
    assert (Hidx : exists idx, length idx = length vals /\
       (forall k, k < length vals -> nth_error idx k = Some (qshift es + Z.max 0 (- d) + Z.of_nat k)%Z) /\
       forall mp mpi, (if (0 <=? d)%Z then
                 update_rb vals (lslice (arange (qshift es) L) 0 (length vals)) mp mpi (Z.to_nat d) (Z.to_nat d + length vals)
               else
                 update_rb vals (lslice (arange (qshift es) L) (Z.to_nat (- d)) (Z.to_nat (- d) + length vals)) mp mpi 0 (length vals))
         = update_rb vals idx mp mpi (Z.to_nat (Z.max 0 d)) (Z.to_nat (Z.max 0 d) + length vals)).
    { destruct (Z.leb_spec 0 d).
      - exists (lslice (arange (qshift es) L) 0 (length vals)).
        split; [rewrite length_lslice, length_arange; lia|]. split.
        + intros k Hk. change (length vals) with (0 + length vals). rewrite range_slice by lia. f_equal; lia.
        + intros. replace (Z.to_nat (Z.max 0 d)) with (Z.to_nat d) by lia. reflexivity.
      - exists (lslice (arange (qshift es) L) (Z.to_nat (- d)) (Z.to_nat (- d) + length vals)).
        split; [rewrite length_lslice, length_arange; lia|]. split.
        + intros k Hk. rewrite range_slice by lia. f_equal; lia.
        + intros. replace (Z.to_nat (Z.max 0 d)) with 0 by lia. reflexivity. }
    destruct Hidx as (idx & Li & Hidx & Hupd). cbv zeta.
    destruct (Z.leb_spec 0 (d + (sshift es - qshift es))) as [Hside|Hside].
    - rewrite Hupd. destruct (@update_rb_ok w vals idx (s_left s) (s_ileft s) (Z.to_nat (Z.max 0 d)) Kl Kil Li Hv2)
        as (mp' & mpi' & E & F1 & F2 & L1 & L2 & Hu). rewrite E. cbn [bind fst snd].
      eexists; split; [reflexivity|].
      constructor; cbn [s_ss s_qs s_range s_left s_ileft s_right s_iright]; rewrite ?SS, ?QQ; auto.
      + eapply side_diag; [exact Kleft|left; auto|exact Li|exact Hidx|exact L1|exact L2|exact Hu].
      + apply side_skip; [exact Kright|reflexivity|]. intro a. apply diag_sides. exact Hside.
    - rewrite Hupd. destruct (@update_rb_ok w vals idx (s_right s) (s_iright s) (Z.to_nat (Z.max 0 d)) Krr Kir Li Hv2)
        as (mp' & mpi' & E & F1 & F2 & L1 & L2 & Hu). rewrite E. cbn [bind fst snd].
      eexists; split; [reflexivity|].
      constructor; cbn [s_ss s_qs s_range s_left s_ileft s_right s_iright]; rewrite ?SS, ?QQ; auto.
      + apply side_skip; [exact Kleft|reflexivity|]. intro a. apply diag_sides. exact Hside.
      + eapply side_diag; [exact Kright|right; auto|exact Li|exact Hidx|exact L1|exact L2|exact Hu].
  Qed.

  (** A column that updates entry [c] of one side to the running minimum *)
  Lemma side_col (P : Z -> Z -> bool) w es c vals rest mp mpi mp' mpi' :
    let a := (sshift es + Z.of_nat c)%Z in
    side_ok P w es mp mpi -> c < w -> length mp' = w -> length mpi' = w ->
    (forall j, j <> c -> nth_error mp' j = nth_error mp j /\ nth_error mpi' j = nth_error mpi j) ->
    (forall b, ent mp mpi c = Some b ->
       ent mp' mpi' c = Some (best_from b (sel (P a) a (col_cells (qshift es) (sshift es) c vals)))) ->
    side_ok P w (es ++ [ECol c (vals :: rest)]) mp' mpi'.
  Proof.
    intros a (H1 & H2 & H3) Hc L1 L2 Ho Hu. split; [exact L1|split; [exact L2|]]. intros j Hj.
    rewrite sshift_app, log_snoc, sel_app. simpl (sshift [_]). rewrite Z.add_0_r. cbn [event_cells].
    destruct (Nat.eq_dec j c) as [->|Hne].
    - rewrite (Hu _ (H3 c Hj)), best_app. reflexivity.
    - rewrite sel_col. destruct (Z.eqb_spec (sshift es + Z.of_nat c) (sshift es + Z.of_nat j)); [lia|].
      rewrite app_nil_r, <- (H3 j Hj). unfold ent. destruct (Ho j Hne) as [-> ->]. reflexivity.
  Qed.

  Lemma side_best_nonnan P w es mp mpi c v i : side_ok P w es mp mpi -> c < w -> ent mp mpi c = Some (v, i) -> isnan v = false.
  Proof.
    intros (_ & _ & H) Hc E. rewrite (H c Hc) in E. injection E as E.
    rewrite <- (best_no_nan (sel (P (sshift es + Z.of_nat c)%Z) (sshift es + Z.of_nat c)%Z (log es))), E. reflexivity.
  Qed.

  (** The guarded update of one side by the part [part] of a column, whose first cell is at absolute
      row [off]. *)
  Lemma col_update (P : Z -> Z -> bool) w es c vals rest (mp : rb num) (mpi : rb Z) (part : list num) (off : Z) :
    let a := (sshift es + Z.of_nat c)%Z in
    side_ok P w es (rb_view mp) (rb_view mpi) -> full_rb w mp -> full_rb w mpi -> c < w ->
    sel (P a) a (col_cells (qshift es) (sshift es) c vals) = mapi (fun k v => ((off + Z.of_nat k)%Z, v)) part ->
    part <> [] -> no_nan part ->
    exists i v cur, amin part = Ok v /\ argmin part = Ok i /\ getitem (rb_view mp) c = Ok cur /\
      if fltb v cur then
        exists mp' mpi', rb_setitem mp (Z.of_nat c) v = Ok mp' /\ rb_setitem mpi (Z.of_nat c) (Z.of_nat i + off)%Z = Ok mpi' /\
          full_rb w mp' /\ full_rb w mpi' /\
          side_ok P w (es ++ [ECol c (vals :: rest)]) (rb_view mp') (rb_view mpi')
      else side_ok P w (es ++ [ECol c (vals :: rest)]) (rb_view mp) (rb_view mpi).
  Proof.
    intros a Hs F1 F2 Hc Hsel Hne Hnn.
    destruct (@amin_argmin _ _ _ part Hne Hnn) as (i & v & E1 & E2 & Fm).
    destruct (@ent_some A (rb_view mp) (rb_view mpi) c) as [[cur ci] Ecur]; [rewrite (f_len F1); exact Hc|rewrite (f_len F2); exact Hc|].
    pose proof (ent_inv _ _ _ Ecur) as [Ec1 Ec2].
    exists i, v, cur. split; [exact E2|]. split; [exact E1|]. split; [apply getitem_ok, Ec1|].
    pose proof (side_best_nonnan Hs Hc Ecur) as Hnan.
    assert (BF : forall b, ent (rb_view mp) (rb_view mpi) c = Some b ->
       best_from b (sel (P a) a (col_cells (qshift es) (sshift es) c vals)) =
       if fltb v cur then (v, (Z.of_nat i + off)%Z) else (cur, ci)).
    { intros b Hb. rewrite Ecur in Hb. injection Hb as <-. rewrite Hsel.
      rewrite (@best_from_min _ _ _ part (fun k => (off + Z.of_nat k)%Z) i v (cur, ci) Hnn Fm Hnan). cbn [fst].
      destruct (fltb v cur); [|reflexivity]. f_equal. lia. }
    destruct (fltb v cur).
    - destruct (@full_setitem _ w mp c v F1 Hc) as (mp' & M1 & M2 & M3).
      destruct (@full_setitem _ w mpi c (Z.of_nat i + off)%Z F2 Hc) as (mpi' & M4 & M5 & M6).
      exists mp', mpi'. repeat (split; [assumption|]).
      eapply side_col; [exact Hs|exact Hc|apply M2|apply M5| |].
      + intros j Hj. rewrite M3, M6. destruct (Nat.eqb_spec j c); [contradiction|]. auto.
      + intros b Hb. fold a. rewrite (BF b Hb). unfold ent. rewrite M3, M6, Nat.eqb_refl. reflexivity.
    - eapply side_col; [exact Hs|exact Hc|apply F1|apply F2|auto|].
      intros b Hb. fold a. rewrite (BF b Hb). exact Ecur.
  Qed.

  (** A column without cells on this side *)
  Lemma col_skip (P : Z -> Z -> bool) w es c vals rest mp mpi :
    let a := (sshift es + Z.of_nat c)%Z in
    side_ok P w es mp mpi -> sel (P a) a (col_cells (qshift es) (sshift es) c vals) = [] ->
    side_ok P w (es ++ [ECol c (vals :: rest)]) mp mpi.
  Proof.
    intros a Hs Hsel. apply side_skip; [exact Hs|reflexivity|]. intro a'. cbn [event_cells].
    destruct (Z.eqb_spec a a') as [<-|Hne]; [exact Hsel|].
    rewrite sel_col. destruct (Z.eqb_spec (sshift es + Z.of_nat c) a'); [contradiction|reflexivity].
  Qed.

  Lemma smp_col_ok h w es s c vs : smp_ok h w es s -> fits h w (ECol c vs) -> cols_no_nan (ECol c vs) ->
    exists s', smp_col s c vs = Ok s' /\ smp_ok h w (es ++ [ECol c vs]) s'.
  Proof.
    intros Hs (Hc & vals & rest & -> & Hv1 & Hv2) Hnan.
    pose proof (Hnan vals (or_introl eq_refl)) as Hn. change (no_nan vals) in Hn.
    destruct Hs as [Kss Kqs Kr Kv Kl Kil Krr Kir Kleft Kright].
    unfold smp_col. cbn [row0 bind]. rewrite Kss, Kqs.
    assert (SS : sshift (es ++ [ECol c (vals :: rest)]) = sshift es) by (rewrite sshift_app; simpl; lia).
    assert (QQ : qshift (es ++ [ECol c (vals :: rest)]) = qshift es) by (rewrite qshift_app; simpl; lia).
    pose proof (sel_col_left (qshift es) (sshift es) c vals) as SL.
    pose proof (sel_col_right (qshift es) (sshift es) c vals) as SR. cbv zeta in SR |- *.
    set (border := Z.to_nat (Z.max 0 (Z.of_nat c + 1 + (sshift es - qshift es)))) in *.
    (* left half *)
    match goal with |- exists s', bind ?X _ = _ /\ _ => assert (HL : exists s1, X = Ok s1 /\
      s_range s1 = s_range s /\ s_right s1 = s_right s /\ s_iright s1 = s_iright s /\ s_ss s1 = s_ss s /\ s_qs s1 = s_qs s /\
      full_rb w (s_left s1) /\ full_rb w (s_ileft s1) /\
      side_ok is_left w (es ++ [ECol c (vals :: rest)]) (rb_view (s_left s1)) (rb_view (s_ileft s1))) end.
    { destruct (Nat.ltb_spec 0 border) as [Hb|Hb].
      - destruct (@col_update is_left w es c vals rest (s_left s) (s_ileft s) (firstn border vals) (qshift es) Kleft Kl Kil Hc SL)
          as (i & v & cur & E1 & E2 & E3 & H).
        { destruct border; [lia|]. destruct vals; [simpl in Hv1; lia|discriminate]. }
        { apply no_nan_firstn, Hn. }
        rewrite E1, E2, E3. cbn [bind]. destruct (fltb v cur).
        + destruct H as (mp' & mpi' & M1 & M2 & M3 & M4 & M5). rewrite M1. cbn [bind]. rewrite M2. cbn [bind].
          eexists; split; [reflexivity|]. cbn [s_ss s_qs s_range s_left s_ileft s_right s_iright]. auto 10.
        + exists s. auto 10.
      - exists s. split; [reflexivity|]. repeat (split; [reflexivity|]). split; [exact Kl|]. split; [exact Kil|].
        apply col_skip; [exact Kleft|]. rewrite SL. replace border with 0 by lia. reflexivity. }
    destruct HL as (s1 & -> & R1 & R2 & R3 & R4 & R5 & F1 & F2 & Hleft). cbn [bind].
    rewrite R1, R2, R3, R4, R5, Kqs.
    destruct (Nat.ltb_spec border (length vals)) as [Hb|Hb].
    - destruct (@col_update is_right w es c vals rest (s_right s) (s_iright s) (skipn border vals) (qshift es + Z.of_nat border)%Z Kright Krr Kir Hc)
          as (i & v & cur & E1 & E2 & E3 & H).
      { exact SR. }
      { intro E. apply (f_equal (@length _)) in E. rewrite skipn_length in E. simpl in E. lia. }
      { apply no_nan_skipn, Hn. }
      rewrite E1, E2, E3. cbn [bind]. destruct (fltb v cur).
      + destruct H as (mp' & mpi' & M1 & M2 & M3 & M4 & M5). rewrite M1. cbn [bind].
        replace (Z.of_nat i + Z.of_nat border + qshift es)%Z with (Z.of_nat i + (qshift es + Z.of_nat border))%Z by lia.
        rewrite M2. cbn [bind].
        eexists; split; [reflexivity|].
        constructor; cbn [s_ss s_qs s_range s_left s_ileft s_right s_iright]; rewrite ?SS, ?QQ; auto.
      + exists s1. split; [reflexivity|]. constructor; rewrite ?R1, ?R2, ?R3, ?R4, ?R5, ?SS, ?QQ; auto.
    - exists s1. split; [reflexivity|].
      assert (Hright : side_ok is_right w (es ++ [ECol c (vals :: rest)]) (rb_view (s_right s)) (rb_view (s_iright s))).
      { apply col_skip; [exact Kright|]. rewrite SR, skipn_all2 by lia. reflexivity. }
      constructor; rewrite ?R1, ?R2, ?R3, ?R4, ?R5, ?SS, ?QQ; auto.
  Qed.

  Lemma arange_push q L n : 0 < L -> lastn L (arange q L ++ arange (q + Z.of_nat L) n) = arange (q + Z.of_nat n) L.
  Proof.
    intro HL. apply nth_error_ext. intro i.
    destruct (Nat.lt_ge_cases i L) as [Hi|Hi].
    - rewrite (@nth_lastn_push _ L); [|apply length_arange|exact Hi]. rewrite length_arange, !nth_error_arange.
      destruct (Nat.ltb_spec i L); [|lia].
      destruct (Nat.ltb_spec (i + n) L); [f_equal; lia|].
      destruct (Nat.ltb_spec (i + n - L) n); [f_equal; lia|lia].
    - rewrite !nth_error_none_ge; [reflexivity|rewrite length_arange; lia|].
      rewrite length_lastn, app_length, !length_arange. lia.
  Qed.

  Lemma smp_shiftq_ok h w es s n : 0 < w -> smp_ok h w es s ->
    exists s', smp_shift_query s n = Ok s' /\ smp_ok h w (es ++ [EShiftQ n]) s'.
  Proof.
    intros Hw Hs. destruct Hs as [Kss Kqs Kr Kv Kl Kil Krr Kir Kleft Kright].
    assert (SS : sshift (es ++ [EShiftQ n]) = sshift es) by (rewrite sshift_app; cbn [sshift event_sshift]; lia).
    assert (QQ : qshift (es ++ [EShiftQ n]) = (qshift es + Z.of_nat n)%Z) by (rewrite qshift_app; cbn [qshift event_qshift]; lia).
    assert (Hleft : side_ok is_left w (es ++ [EShiftQ n]) (rb_view (s_left s)) (rb_view (s_ileft s)))
      by (apply side_skip; [exact Kleft|reflexivity|reflexivity]).
    assert (Hright : side_ok is_right w (es ++ [EShiftQ n]) (rb_view (s_right s)) (rb_view (s_iright s)))
      by (apply side_skip; [exact Kright|reflexivity|reflexivity]).
    unfold smp_shift_query. destruct (Nat.eqb_spec n 0) as [->|Hn].
    - exists s. split; [reflexivity|]. rewrite Z.add_0_r in QQ.
      constructor; rewrite ?SS, ?QQ; auto.
    - set (L := Nat.max w h) in *. rewrite Kv.
      assert (P : pyget (arange (qshift es) L) (-1) = Ok (qshift es + Z.of_nat L - 1)%Z).
      { unfold pyget. rewrite length_arange. destruct (Z.ltb_spec (-1) (- Z.of_nat L)); [lia|].
        destruct (Z.leb_spec (Z.of_nat L) (-1)); [lia|]. cbn [orb]. destruct (Z.ltb_spec (-1) 0); [|lia].
        unfold getitem. rewrite nth_error_arange. destruct (Nat.ltb_spec (Z.to_nat (-1 + Z.of_nat L)) L); [|lia].
        f_equal; lia. }
      rewrite P. cbn [bind].
      destruct (@full_push _ L (s_range s) (arange (qshift es + Z.of_nat L - 1 + 1) n)) as (b' & E & F & V);
        [lia|exact Kr|]. rewrite E. cbn [bind fst]. eexists; split; [reflexivity|].
      constructor; cbn [s_ss s_qs s_range s_left s_ileft s_right s_iright]; rewrite ?SS, ?QQ; auto.
      + rewrite Kqs. reflexivity.
      + rewrite V, Kv. replace (qshift es + Z.of_nat L - 1 + 1)%Z with (qshift es + Z.of_nat L)%Z by lia.
        apply arange_push. lia.
  Qed.

  Lemma side_shift P h w es n mp mpi mp' mpi' : Forall (fits h w) es ->
    side_ok P w es mp mpi ->
    mp' = lastn w (mp ++ repeat PInf n) -> mpi' = lastn w (mpi ++ repeat (-1)%Z n) ->
    side_ok P w (es ++ [EShiftS n]) mp' mpi'.
  Proof.
    intros Hf (H1 & H2 & H3) -> ->.
    split; [rewrite length_lastn, app_length, repeat_length; lia|].
    split; [rewrite length_lastn, app_length, repeat_length; lia|].
    intros c Hc. rewrite sshift_app, log_snoc, sel_app. cbn [event_cells sshift event_sshift].
    change (sel _ _ (@nil (cell num))) with (@nil (Z * num)). rewrite app_nil_r, Z.add_0_r.
    unfold ent. rewrite (@nth_lastn_push _ w mp), (@nth_lastn_push _ w mpi), !repeat_length, !nth_error_repeat' by assumption.
    destruct (Nat.ltb_spec (c + n) w) as [Hin|Hin].
    - specialize (H3 (c + n) Hin). unfold ent in H3.
      replace (sshift es + Z.of_nat (c + n))%Z with (sshift es + Z.of_nat n + Z.of_nat c)%Z in H3 by lia. exact H3.
    - destruct (Nat.ltb_spec (c + n - w) n); [|lia].
      rewrite sel_empty; [reflexivity|]. intros r v Hi. apply (log_bound Hf) in Hi. lia.
  Qed.

  Lemma smp_shifts_ok h w es s n : 0 < w -> Forall (fits h w) es -> smp_ok h w es s ->
    exists s', smp_shift_series s n = Ok s' /\ smp_ok h w (es ++ [EShiftS n]) s'.
  Proof.
    intros Hw Hf Hs. destruct Hs as [Kss Kqs Kr Kv Kl Kil Krr Kir Kleft Kright].
    assert (SS : sshift (es ++ [EShiftS n]) = (sshift es + Z.of_nat n)%Z) by (rewrite sshift_app; cbn [sshift event_sshift]; lia).
    assert (QQ : qshift (es ++ [EShiftS n]) = qshift es) by (rewrite qshift_app; cbn [qshift event_qshift]; lia).
    unfold smp_shift_series. destruct (Nat.eqb_spec n 0) as [->|Hn].
    - exists s. split; [reflexivity|]. rewrite Z.add_0_r in SS.
      constructor; rewrite ?SS, ?QQ; auto;
        (eapply side_shift; [exact Hf|eassumption| |]; simpl repeat; rewrite app_nil_r, lastn_all; auto;
         [rewrite (f_len Kl)||rewrite (f_len Krr)|rewrite (f_len Kil)||rewrite (f_len Kir)]; lia).
    - destruct (@full_push _ w (s_left s) (repeat PInf n) Hw Kl) as (b1 & E1 & F1 & V1).
      destruct (@full_push _ w (s_right s) (repeat PInf n) Hw Krr) as (b2 & E2 & F2 & V2).
      destruct (@full_push _ w (s_ileft s) (repeat (-1)%Z n) Hw Kil) as (b3 & E3 & F3 & V3).
      destruct (@full_push _ w (s_iright s) (repeat (-1)%Z n) Hw Kir) as (b4 & E4 & F4 & V4).
      rewrite E1. cbn [bind]. rewrite E2. cbn [bind]. rewrite E3. cbn [bind]. rewrite E4. cbn [bind fst].
      eexists; split; [reflexivity|].
      constructor; cbn [s_ss s_qs s_range s_left s_ileft s_right s_iright]; rewrite ?SS, ?QQ; auto.
      + rewrite Kss. reflexivity.
      + eapply side_shift; [exact Hf|exact Kleft|exact V1|exact V3].
      + eapply side_shift; [exact Hf|exact Kright|exact V2|exact V4].
  Qed.

  Lemma smp_run_ok h w : 0 < w -> forall es s0, smp_ok h w [] s0 ->
    Forall (fits h w) es -> Forall cols_no_nan es ->
    exists s, smp_run s0 es = Ok s /\ smp_ok h w es s.
  Proof.
    intros Hw es s0 H0. induction es as [|e es IH] using rev_ind; intros Hf Hn.
    - exists s0. split; [reflexivity|exact H0].
    - apply Forall_app in Hf, Hn. destruct Hf as [Hf He], Hn as [Hn Hne]. apply Forall_inv in He, Hne.
      destruct (IH Hf Hn) as (s & E & Hs). unfold smp_run in *.
      assert (HS : exists s', smp_step s e = Ok s' /\ smp_ok h w (es ++ [e]) s').
      { destruct e; cbn [smp_step].
        - apply smp_diag_ok; assumption.
        - apply smp_col_ok; assumption.
        - apply smp_shifts_ok; assumption.
        - apply smp_shiftq_ok; assumption. }
      destruct HS as (s' & E' & Hs'). exists s'. split; [|exact Hs'].
      rewrite foldM_app, E. simpl. rewrite E'. reflexivity.
  Qed.

  Lemma smp_ok_first h w es s : smp_ok h w es s ->
    length (rb_view (s_left s)) = w /\ length (rb_view (s_right s)) = w /\
    length (rb_view (s_ileft s)) = w /\ length (rb_view (s_iright s)) = w /\
    forall c, c < w -> exists vl il vr ir,
      nth_error (rb_view (s_left s)) c = Some vl /\ nth_error (rb_view (s_ileft s)) c = Some il /\
      nth_error (rb_view (s_right s)) c = Some vr /\ nth_error (rb_view (s_iright s)) c = Some ir /\
      let a := (sshift es + Z.of_nat c)%Z in
      is_first_best (sel (is_left a) a (log es)) vl il /\
      is_first_best (sel (is_right a) a (log es)) vr ir.
  Proof.
    intros [_ _ _ _ _ _ _ _ (L1 & L2 & L3) (R1 & R2 & R3)]. repeat (split; [assumption|]).
    intros c Hc. specialize (L3 c Hc). specialize (R3 c Hc).
    set (a := (sshift es + Z.of_nat c)%Z) in *.
    destruct (best (sel (is_left a) a (log es))) as [vl il] eqn:El.
    destruct (best (sel (is_right a) a (log es))) as [vr ir] eqn:Er.
    apply ent_inv in L3, R3. exists vl, il, vr, ir. repeat (split; [apply L3 || apply R3|]).
    cbv zeta. split.
    - pose proof (best_first (sel (is_left a) a (log es))) as B. rewrite El in B. exact B.
    - pose proof (best_first (sel (is_right a) a (log es))) as B. rewrite Er in B. exact B.
  Qed.
End PShift.

(** ** The statements of PropProfile *)
Section Statements.
  Context {A : Type} {NA : NumOps A} {OL : OrdLaws A}.
  Notation num := (Np.num A).

  Lemma C33_lemma : forall h w (es : list (event num)),
    Forall is_diag es -> Forall (fits h w) es ->
    exists s, mplr_run (mplr_init h w) es = Ok s /\
      length (mp_left s) = w /\ length (mp_right s) = w /\ length (mp_ileft s) = w /\ length (mp_iright s) = w /\
      forall c, c < w -> exists vl il vr ir,
        nth_error (mp_left s) c = Some vl /\ nth_error (mp_ileft s) c = Some il /\
        nth_error (mp_right s) c = Some vr /\ nth_error (mp_iright s) c = Some ir /\
        let a := Z.of_nat c in
        is_first_best (sel (is_left a) a (log es)) vl il /\
        is_first_best (sel (is_right a) a (log es)) vr ir.
  Proof.
    intros h w es Hd Hf. destruct (mplr_diags_run Hd Hf) as (s & E & Hs). exists s. split; [exact E|].
    eapply mplr_ok_first; [exact Hs|]. eapply Forall_impl; [|exact Hd]; intros []; simpl; tauto.
  Qed.

  Lemma C35_lemma : forall h w D (es : list (event num)),
    Forall no_shift es -> Forall (fits h w) es -> Forall (full_cols h) es -> Forall cols_no_nan es ->
    agrees D (log es) ->
    exists s, mplr_run (mplr_init h w) es = Ok s /\
      length (mplr_mp s) = w /\ length (mplr_idx s) = w /\
      forall c, c < w -> exists vl il vr ir v i,
        nth_error (mp_left s) c = Some vl /\ nth_error (mp_ileft s) c = Some il /\
        nth_error (mp_right s) c = Some vr /\ nth_error (mp_iright s) c = Some ir /\
        nth_error (mplr_mp s) c = Some v /\ nth_error (mplr_idx s) c = Some i /\
        fleb v vl = true /\ fleb v vr = true /\ (v = vl /\ i = il \/ v = vr /\ i = ir) /\
        is_best (sel (is_left (Z.of_nat c)) (Z.of_nat c) (log es)) vl il /\
        is_best (sel (is_right (Z.of_nat c)) (Z.of_nat c) (log es)) vr ir /\
        is_best (sel all_rows (Z.of_nat c) (log es)) v i.
  Proof.
    intros h w D es Hn Hf Hc Hnan Hag. destruct (mplr_mix_run Hn Hf Hc Hnan Hag) as (s & E & _ & HL & HR).
    exists s. split; [exact E|].
    destruct HL as (L1 & L2 & L3). destruct HR as (R1 & R2 & R3).
    split; [unfold mplr_mp, merge_mp; rewrite length_zip_with; lia|].
    split; [unfold mplr_idx, merge_idx; rewrite !length_zip_with; lia|].
    intros c Hcw. destruct (L3 c Hcw) as (vl & il & El & Bl). destruct (R3 c Hcw) as (vr & ir & Er & Br).
    apply ent_inv in El, Er. destruct El as [El1 El2], Er as [Er1 Er2].
    exists vl, il, vr, ir, (if fltb vl vr then vl else vr), (if fltb vl vr then il else ir).
    repeat (split; [assumption|]).
    split; [apply nth_merge; assumption|]. split; [apply nth_merge_idx; assumption|].
    assert (Nl : isnan vl = false) by (destruct Bl as [[-> _]|(H & _)]; [reflexivity|apply (fltb_nonnan _ _ H)]).
    assert (Nr : isnan vr = false) by (destruct Br as [[-> _]|(H & _)]; [reflexivity|apply (fltb_nonnan _ _ H)]).
    split; [|split; [|split; [|split; [exact Bl|split; [exact Br|apply merge_best; assumption]]]]].
    - destruct (fltb vl vr) eqn:Elr; [apply fleb_refl, Nl|apply fltb_false_fleb; assumption].
    - destruct (fltb vl vr) eqn:Elr; [apply fltb_fleb, Elr|apply fleb_refl, Nr].
    - destruct (fltb vl vr); auto.
  Qed.

  Lemma C35_complete_lemma : forall h w D (es : list (event num)),
    Forall no_shift es -> Forall (fits h w) es -> Forall (full_cols h) es -> Forall cols_no_nan es ->
    agrees D (log es) -> covers h w (log es) ->
    exists s, mplr_run (mplr_init h w) es = Ok s /\
      forall c, c < w -> exists v i, nth_error (mplr_mp s) c = Some v /\ nth_error (mplr_idx s) c = Some i /\
        (forall r, r < h -> fltb (D (Z.of_nat r) (Z.of_nat c)) v = false) /\
        (v = PInf \/ exists r, r < h /\ i = Z.of_nat r /\ v = D (Z.of_nat r) (Z.of_nat c)).
  Proof.
    intros h w D es Hn Hf Hc Hnan Hag Hcov. destruct (C35_lemma Hn Hf Hc Hnan Hag) as (s & E & _ & _ & H).
    exists s. split; [exact E|]. intros c Hcw.
    destruct (H c Hcw) as (_ & _ & _ & _ & v & i & _ & _ & _ & _ & E1 & E2 & _ & _ & _ & _ & _ & B).
    exists v, i. split; [exact E1|]. split; [exact E2|].
    assert (M : forall r x, In (r, x) (sel all_rows (Z.of_nat c) (log es)) -> fltb x v = false).
    { destruct B as [[-> B]|(_ & _ & B)]; exact B. }
    split.
    - intros r Hr. destruct (Hcov (Z.of_nat r) (Z.of_nat c)) as [x Hx]; [lia|lia|].
      rewrite <- (Hag _ _ _ Hx). apply (M (Z.of_nat r)). apply in_sel. split; [exact Hx|reflexivity].
    - destruct B as [[-> _]|(_ & I & _)]; [left; reflexivity|]. right.
      apply in_sel in I. destruct I as [I _]. pose proof (log_bound Hf _ _ _ I) as [B1 _].
      destruct (no_shift_qs Hn) as [Q _]. rewrite Q in B1.
      exists (Z.to_nat i). split; [lia|]. split; [lia|]. rewrite Z2Nat.id by lia. apply Hag, I.
  Qed.

  Lemma first_best_inf cells v i : is_first_best cells v i -> v = (PInf : num) -> i = (-1)%Z.
  Proof. intros [(_ & H & _)|[H _]] E; [exact H|]. subst v. discriminate. Qed.

  Lemma merge_inf (l r : list num) il ir c vl vr i j : nth_error l c = Some vl -> nth_error r c = Some vr ->
    nth_error il c = Some i -> nth_error ir c = Some j ->
    (vl = PInf -> i = (-1)%Z) -> (vr = PInf -> j = (-1)%Z) ->
    nth_error (merge_mp l r) c = Some PInf -> nth_error (merge_idx l r il ir) c = Some (-1)%Z.
  Proof.
    intros H1 H2 H3 H4 Hi Hj E. rewrite (nth_merge _ _ _ H1 H2) in E.
    rewrite (nth_merge_idx _ _ _ _ _ H1 H2 H3 H4).
    destruct (fltb vl vr); f_equal; [apply Hi|apply Hj]; congruence.
  Qed.

  Lemma C36_diag_lemma : forall h w (es : list (event num)), Forall is_diag es -> Forall (fits h w) es ->
    exists s, mplr_run (mplr_init h w) es = Ok s /\
      forall c, (nth_error (mp_left s) c = Some PInf -> nth_error (mp_ileft s) c = Some (-1)%Z) /\
                (nth_error (mp_right s) c = Some PInf -> nth_error (mp_iright s) c = Some (-1)%Z) /\
                (nth_error (mplr_mp s) c = Some PInf -> nth_error (mplr_idx s) c = Some (-1)%Z).
  Proof.
    intros h w es Hd Hf. destruct (C33_lemma Hd Hf) as (s & E & L1 & L2 & L3 & L4 & H). exists s. split; [exact E|].
    intro c. destruct (Nat.lt_ge_cases c w) as [Hc|Hc].
    - destruct (H c Hc) as (vl & il & vr & ir & E1 & E2 & E3 & E4 & B1 & B2).
      pose proof (first_best_inf B1) as I1. pose proof (first_best_inf B2) as I2.
      split; [|split].
      + rewrite E1, E2. intros [= ->]. rewrite (I1 eq_refl). reflexivity.
      + rewrite E3, E4. intros [= ->]. rewrite (I2 eq_refl). reflexivity.
      + intro E5. eapply merge_inf; eassumption.
    - split; [|split]; intro X; apply nth_error_some_lt in X; try lia.
      unfold mplr_mp, merge_mp in X. rewrite length_zip_with in X. lia.
  Qed.

  Lemma C38_lemma : forall memn memz sf h w (es : list (event num)),
    (1 <= sf)%Q -> (sf <= 2)%Q -> 0 < w -> Forall (fits h w) es -> Forall cols_no_nan es ->
    exists s0 s, smp_init memn memz sf h w = Ok s0 /\ smp_run s0 es = Ok s /\
      s_qs s = qshift es /\ s_ss s = sshift es /\
      length (rb_view (s_left s)) = w /\ length (rb_view (s_right s)) = w /\
      length (rb_view (s_ileft s)) = w /\ length (rb_view (s_iright s)) = w /\
      forall c, c < w -> exists vl il vr ir,
        nth_error (rb_view (s_left s)) c = Some vl /\ nth_error (rb_view (s_ileft s)) c = Some il /\
        nth_error (rb_view (s_right s)) c = Some vr /\ nth_error (rb_view (s_iright s)) c = Some ir /\
        let a := (sshift es + Z.of_nat c)%Z in
        is_first_best (sel (is_left a) a (log es)) vl il /\
        is_first_best (sel (is_right a) a (log es)) vr ir.
  Proof.
    intros memn memz sf h w es H1 H2 Hw Hf Hn.
    destruct (@smp_init_ok A _ memn memz sf h w H1 H2 Hw) as (s0 & E0 & K0).
    destruct (smp_run_ok Hw K0 Hf Hn) as (s & E & K). exists s0, s.
    split; [exact E0|]. split; [exact E|]. split; [apply K|]. split; [apply K|]. exact (smp_ok_first K).
  Qed.

  Lemma C36_shift_lemma : forall memn memz sf h w (es : list (event num)),
    (1 <= sf)%Q -> (sf <= 2)%Q -> 0 < w -> Forall (fits h w) es -> Forall cols_no_nan es ->
    exists s0 s, smp_init memn memz sf h w = Ok s0 /\ smp_run s0 es = Ok s /\
      forall c, (nth_error (rb_view (s_left s)) c = Some PInf -> nth_error (rb_view (s_ileft s)) c = Some (-1)%Z) /\
                (nth_error (rb_view (s_right s)) c = Some PInf -> nth_error (rb_view (s_iright s)) c = Some (-1)%Z) /\
                (nth_error (smp_mp s) c = Some PInf -> nth_error (smp_idx s) c = Some (-1)%Z).
  Proof.
    intros memn memz sf h w es H1 H2 Hw Hf Hn.
    destruct (C38_lemma memn memz H1 H2 Hw Hf Hn) as (s0 & s & E0 & E & _ & _ & L1 & L2 & L3 & L4 & H).
    exists s0, s. split; [exact E0|]. split; [exact E|].
    intro c. destruct (Nat.lt_ge_cases c w) as [Hc|Hc].
    - destruct (H c Hc) as (vl & il & vr & ir & E1 & E2 & E3 & E4 & B1 & B2).
      pose proof (first_best_inf B1) as I1. pose proof (first_best_inf B2) as I2.
      split; [|split].
      + rewrite E1, E2. intros [= ->]. rewrite (I1 eq_refl). reflexivity.
      + rewrite E3, E4. intros [= ->]. rewrite (I2 eq_refl). reflexivity.
      + intro E5. eapply merge_inf; eassumption.
    - split; [|split]; intro X; apply nth_error_some_lt in X; try lia.
      unfold smp_mp, merge_mp in X. rewrite length_zip_with in X. lia.
  Qed.

  (** merged profile of the streaming consumer *)
  Lemma C38_merged_lemma : forall memn memz sf h w (es : list (event num)),
    (1 <= sf)%Q -> (sf <= 2)%Q -> 0 < w -> Forall (fits h w) es -> Forall cols_no_nan es ->
    exists s0 s, smp_init memn memz sf h w = Ok s0 /\ smp_run s0 es = Ok s /\
      length (smp_mp s) = w /\ length (smp_idx s) = w /\
      forall c, c < w -> exists v i,
        nth_error (smp_mp s) c = Some v /\ nth_error (smp_idx s) c = Some i /\
        let a := (sshift es + Z.of_nat c)%Z in is_best (sel all_rows a (log es)) v i.
  Proof.
    intros memn memz sf h w es H1 H2 Hw Hf Hn.
    destruct (C38_lemma memn memz H1 H2 Hw Hf Hn) as (s0 & s & E0 & E & _ & _ & L1 & L2 & L3 & L4 & H).
    exists s0, s. split; [exact E0|]. split; [exact E|].
    split; [unfold smp_mp, merge_mp; rewrite length_zip_with; lia|].
    split; [unfold smp_idx, merge_idx; rewrite !length_zip_with; lia|].
    intros c Hc. destruct (H c Hc) as (vl & il & vr & ir & E1 & E2 & E3 & E4 & B1 & B2).
    exists (if fltb vl vr then vl else vr), (if fltb vl vr then il else ir).
    split; [apply nth_merge; assumption|]. split; [apply nth_merge_idx; assumption|].
    apply merge_best; apply first_best_best; assumption.
  Qed.

  Lemma C37_lemma : forall h w (es es' : list (event num)),
    Forall is_diag es -> Forall (fits h w) es -> Forall is_diag es' -> Forall (fits h w) es' ->
    (forall x, In x (log es) -> In x (log es')) ->
    exists s s', mplr_run (mplr_init h w) es = Ok s /\ mplr_run (mplr_init h w) es' = Ok s' /\
      forall c, c < w -> exists v v' vl vl' vr vr',
        nth_error (mplr_mp s) c = Some v /\ nth_error (mplr_mp s') c = Some v' /\ fleb v' v = true /\
        nth_error (mp_left s) c = Some vl /\ nth_error (mp_left s') c = Some vl' /\ fleb vl' vl = true /\
        nth_error (mp_right s) c = Some vr /\ nth_error (mp_right s') c = Some vr' /\ fleb vr' vr = true.
  Proof.
    intros h w es es' Hd Hf Hd' Hf' Hsub.
    destruct (C33_lemma Hd Hf) as (s & E & _ & _ & _ & _ & H).
    destruct (C33_lemma Hd' Hf') as (s' & E' & _ & _ & _ & _ & H').
    exists s, s'. split; [exact E|]. split; [exact E'|]. intros c Hc.
    destruct (H c Hc) as (vl & il & vr & ir & E1 & E2 & E3 & E4 & B1 & B2).
    destruct (H' c Hc) as (vl' & il' & vr' & ir' & E1' & E2' & E3' & E4' & B1' & B2').
    apply first_best_best in B1, B2, B1', B2'.
    pose proof (merge_best _ _ B1 B2) as B. pose proof (merge_best _ _ B1' B2') as B'.
    exists (if fltb vl vr then vl else vr), (if fltb vl' vr' then vl' else vr'), vl, vl', vr, vr'.
    assert (NB : forall cells x k, is_best cells x k -> isnan x = false).
    { intros cells x k [[-> _]|(X & _)]; [reflexivity|apply (fltb_nonnan _ _ X)]. }
    assert (Hs : forall P r x, In (r, x) (sel P (Z.of_nat c) (log es)) -> In (r, x) (sel P (Z.of_nat c) (log es'))).
    { intros P r x Hi. apply in_sel in Hi. apply in_sel. split; [apply Hsub, Hi|apply Hi]. }
    split; [apply nth_merge; assumption|]. split; [apply nth_merge; assumption|].
    split; [apply fltb_false_fleb; [eapply NB; exact B|eapply NB; exact B'|eapply is_best_mono; [|exact B|exact B']; apply Hs]|].
    split; [exact E1|]. split; [exact E1'|].
    split; [apply fltb_false_fleb; [eapply NB; exact B1|eapply NB; exact B1'|eapply is_best_mono; [|exact B1|exact B1']; apply Hs]|].
    split; [exact E3|]. split; [exact E3'|].
    apply fltb_false_fleb; [eapply NB; exact B2|eapply NB; exact B2'|eapply is_best_mono; [|exact B2|exact B2']; apply Hs].
  Qed.
End Statements.

(** * The index that MatrixProfileLR stores beside an infinite entry, for any mix of columns and diagonals *)
From Verif Require Import Np NpFacts Mat SLog PLog SIndex MProfile PProfile.
Open Scope nat_scope.
Set Implicit Arguments.

Section Index.
  Context {A : Type} {NA : NumOps A} {OL : OrdLaws A}.
  Notation num := (num A).

  Definition inf_ok (v : num) (i : Z) (P : Prop) (k : Z) : Prop :=
    v = PInf -> (P /\ i = k) \/ (~ P /\ i = (-1)%Z).

  Definition idx_ok (h w : nat) (es : list (event num)) (s : mplr) : Prop :=
    mp_range s = arange 0 (Nat.max w h) /\
    length (mp_left s) = w /\ length (mp_ileft s) = w /\ length (mp_right s) = w /\ length (mp_iright s) = w /\
    forall c, c < w -> exists vl il vr ir,
      ent (mp_left s) (mp_ileft s) c = Some (vl, il) /\ ent (mp_right s) (mp_iright s) c = Some (vr, ir) /\
      inf_ok vl il (col_given c 1 es) 0%Z /\ inf_ok vr ir (col_given c (c + 2) es) (Z.of_nat c + 1)%Z.

  Lemma idx_init h w : idx_ok h w [] (mplr_init h w).
  Proof.
    split; [reflexivity|]. cbn [mplr_init mp_left mp_ileft mp_right mp_iright].
    rewrite !repeat_length. do 4 (split; [reflexivity|]). intros c Hc.
    exists PInf, (-1)%Z, PInf, (-1)%Z. unfold ent. rewrite !nth_error_repeat'.
    destruct (Nat.ltb_spec c w); [|lia]. do 2 (split; [reflexivity|]).
    split; intros _; right; (split; [|reflexivity]); intros (vals & rest & [] & _).
  Qed.

  Lemma given_diag c n es d vs : col_given c n (es ++ [EDiag d vs]) <-> @col_given A c n es.
  Proof.
    split; intros (vals & rest & Hi & Hl); exists vals, rest; (split; [|exact Hl]); [|apply in_or_app; auto].
    apply in_app_or in Hi. destruct Hi as [Hi|[Hi|[]]]; [exact Hi|discriminate].
  Qed.
  Lemma given_col c n es c' vals rest :
    col_given c n (es ++ [ECol c' (vals :: rest)]) <-> @col_given A c n es \/ c' = c /\ n <= length vals.
  Proof.
    split.
    - intros (vals' & rest' & Hi & Hl). apply in_app_or in Hi. destruct Hi as [Hi|[Hi|[]]].
      + left. exists vals', rest'. auto.
      + injection Hi as -> -> ->. auto.
    - intros [(vals' & rest' & Hi & Hl)|[-> Hl]].
      + exists vals', rest'. split; [apply in_or_app; auto|exact Hl].
      + exists vals, rest. split; [apply in_or_app; right; left; reflexivity|exact Hl].
  Qed.
  Lemma inf_iff v i (P Q : Prop) k : (P <-> Q) -> inf_ok v i P k -> inf_ok v i Q k.
  Proof. unfold inf_ok. tauto. Qed.

  Lemma fltb_inf_r (x : num) : fltb PInf x = false.
  Proof. destruct x; reflexivity. Qed.

  (** A diagonal that changes an entry makes it smaller than something. *)
  Lemma inf_bstep v i r x P k : inf_ok v i P k ->
    inf_ok (fst (bstep (v, i) (r, x))) (snd (bstep (v, i) (r, x))) P k.
  Proof.
    intro H. unfold bstep. cbn [fst snd]. destruct (fltb x v) eqn:E; cbn [fst snd]; [|exact H].
    intros ->. rewrite fltb_inf_r in E. discriminate.
  Qed.

  Lemma inf_update v i P k (idx : list Z) (vals : list num) lo c :
    inf_ok v i P k -> exists v' i',
      (if (lo <=? c) && (c <? lo + length vals) then
         match nth_error idx (c - lo), nth_error vals (c - lo) with
         | Some r, Some x => bstep (v, i) (r, x) | _, _ => (v, i) end else (v, i)) = (v', i') /\
      inf_ok v' i' P k.
  Proof.
    intro H. destruct ((lo <=? c) && (c <? lo + length vals)); [|exists v, i; auto].
    destruct (nth_error idx (c - lo)) as [r|]; [|exists v, i; auto].
    destruct (nth_error vals (c - lo)) as [x|]; [|exists v, i; auto].
    exists (fst (bstep (v, i) (r, x))), (snd (bstep (v, i) (r, x))). split; [apply surjective_pairing|].
    apply inf_bstep, H.
  Qed.

  Lemma idx_diag h w es s d vs : idx_ok h w es s -> fits h w (EDiag d vs) ->
    exists s', mplr_diag s d vs = Ok s' /\ idx_ok h w (es ++ [EDiag d vs]) s'.
  Proof.
    intros (Hr & L1 & L2 & R1 & R2 & H) (Hd & vals & rest & -> & Hv1 & Hv2).
    unfold mplr_diag. cbn [row0 bind]. rewrite Hr.
    destruct (Z.leb_spec 0 d) as [Hpos|Hneg].
    - assert (Li : length (lslice (arange 0 (Nat.max w h)) 0 (length vals)) = length vals)
        by (rewrite length_lslice, length_arange; lia).
      destruct (@update_at_ok A NA vals _ (mp_left s) (mp_ileft s) (Z.to_nat d) Li) as (mp' & mpi' & E & E1 & E2 & E3);
        [lia|lia|]. rewrite E. cbn [bind fst snd]. eexists; split; [reflexivity|].
      split; [reflexivity|]. cbn [mp_left mp_right mp_ileft mp_iright].
      do 4 (split; [congruence|]). intros c Hc. destruct (H c Hc) as (vl & il & vr & ir & H1 & H2 & H3 & H4).
      destruct (@inf_update vl il _ _ (lslice (arange 0 (Nat.max w h)) 0 (length vals)) vals (Z.to_nat d) c H3) as (v' & i' & E4 & H3').
      exists v', i', vr, ir. rewrite (E3 c _ H1), E4. do 2 (split; [auto|]).
      split; (eapply inf_iff; [symmetry; apply given_diag|assumption]).
    - set (n := Z.to_nat (- d)).
      assert (Li : length (lslice (arange 0 (Nat.max w h)) n (n + length vals)) = length vals)
        by (rewrite length_lslice, length_arange; lia).
      destruct (@update_at_ok A NA vals _ (mp_right s) (mp_iright s) 0 Li) as (mp' & mpi' & E & E1 & E2 & E3);
        [lia|lia|]. cbn [plus] in E. rewrite E. cbn [bind fst snd]. eexists; split; [reflexivity|].
      split; [reflexivity|]. cbn [mp_left mp_right mp_ileft mp_iright].
      do 4 (split; [congruence|]). intros c Hc. destruct (H c Hc) as (vl & il & vr & ir & H1 & H2 & H3 & H4).
      destruct (@inf_update vr ir _ _ (lslice (arange 0 (Nat.max w h)) n (n + length vals)) vals 0 c H4) as (v' & i' & E4 & H4').
      exists vl, il, v', i'. rewrite (E3 c _ H2), E4. do 2 (split; [auto|]).
      split; (eapply inf_iff; [symmetry; apply given_diag|assumption]).
  Qed.

  Lemma lowest_inf (vals : list num) lo hi i : lo < hi -> hi <= length vals -> is_lowest vals lo hi PInf i -> i = lo.
  Proof.
    intros H1 H2 (Hi & _ & H). destruct (Nat.eq_dec i lo) as [|Hne]; [assumption|].
    destruct (@nth_error_lt_some _ vals lo) as [x Hx]; [lia|].
    destruct (H lo x) as [_ Hx']; [lia|exact Hx|]. specialize (Hx' ltac:(lia)).
    rewrite fltb_inf_r in Hx'. discriminate.
  Qed.

  Lemma idx_col h w es s c vs : idx_ok h w es s -> fits h w (ECol c vs) -> cols_no_nan (ECol c vs) ->
    exists s', mplr_col s c vs = Ok s' /\ idx_ok h w (es ++ [ECol c vs]) s'.
  Proof.
    intros (Hr & L1 & L2 & R1 & R2 & H) (Hc & vals & rest & -> & Hv1 & Hv2) Hnan.
    assert (Hnv : no_nan vals) by exact (Hnan vals (or_introl eq_refl)).
    assert (Hne : vals <> []) by (destruct vals; [simpl in *; lia|discriminate]).
    destruct (@mplr_col_ok A NA OL w s c vals rest L1 L2 R1 R2 Hc Hne Hnv) as
      (s' & E & E0 & E1 & E2 & E3 & E4 & Hother & (vl & il & Ev & Ei & Hlow) & Hright).
    exists s'. split; [exact E|]. split; [congruence|]. do 4 (split; [assumption|]).
    intros j Hj. destruct (H j Hj) as (vl0 & il0 & vr0 & ir0 & H1 & H2 & H3 & H4).
    destruct (Nat.eq_dec j c) as [->|Hjc].
    - assert (Hright' : exists vr ir, ent (mp_right s') (mp_iright s') c = Some (vr, ir) /\
        inf_ok vr ir (col_given c (c + 2) (es ++ [ECol c (vals :: rest)])) (Z.of_nat c + 1)%Z).
      { destruct (Nat.leb_spec (c + 2) (length vals)) as [Hl|Hl].
        - destruct Hright as (v & i & Hv & Hi & Hlo). exists v, (Z.of_nat i). unfold ent. rewrite Hv, Hi. split; [reflexivity|].
          intros ->. left. split; [apply given_col; auto|]. apply lowest_inf in Hlo; lia.
        - destruct Hright as [Hv Hi]. exists vr0, ir0. unfold ent in *. rewrite Hv, Hi. split; [exact H2|].
          eapply inf_iff; [|exact H4]. rewrite given_col. split; [auto|]. intros [X|[_ X]]; [exact X|lia]. }
      destruct Hright' as (vr & ir & Hr1 & Hr2). exists vl, (Z.of_nat il), vr, ir.
      split; [unfold ent; rewrite Ev, Ei; reflexivity|]. split; [exact Hr1|]. split; [|exact Hr2].
      intros ->. left. split; [apply given_col; right; split; [reflexivity|destruct vals; [congruence|simpl; lia]]|].
      apply lowest_inf in Hlow; [lia| |lia]. destruct vals; [congruence|simpl; lia].
    - destruct (Hother j Hjc) as (N1 & N2 & N3 & N4). exists vl0, il0, vr0, ir0. unfold ent in *. rewrite N1, N2, N3, N4.
      do 2 (split; [assumption|]).
      split; (eapply inf_iff; [|eassumption]); rewrite given_col; (split; [auto|]); intros [X|[X _]]; congruence || exact X.
  Qed.

  Lemma idx_run h w es : Forall no_shift es -> Forall (fits h w) es -> Forall cols_no_nan es ->
    exists s, mplr_run (mplr_init h w) es = Ok s /\ idx_ok h w es s.
  Proof.
    intros Hn Hf Hnan. induction es as [|e es IH] using rev_ind.
    - eexists; split; [reflexivity|apply idx_init].
    - apply Forall_app in Hn, Hf, Hnan. destruct Hn as [Hn Hne], Hf as [Hf Hfe], Hnan as [Hnan Hnane].
      apply Forall_inv in Hne, Hfe, Hnane.
      destruct (IH Hn Hf Hnan) as (s & E & Hs). unfold mplr_run in *.
      destruct e as [d vs|c vs| |]; simpl in Hne; try contradiction.
      + destruct (idx_diag Hs Hfe) as (s' & E' & Hs'). exists s'. split; [|exact Hs'].
        rewrite foldM_app, E. simpl. rewrite E'. reflexivity.
      + destruct (idx_col Hs Hfe Hnane) as (s' & E' & Hs'). exists s'. split; [|exact Hs'].
        rewrite foldM_app, E. simpl. rewrite E'. reflexivity.
  Qed.
End Index.

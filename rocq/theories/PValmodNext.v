(** * PValmodNext: the pruned calculation of the motif of the next length *)
From Coq Require Import QArith Reals Lra Sorted Permutation.
From Verif Require Import Np NpFacts MRing PRing MUtil MArith MStats MCache MZnorm MOstinato MValmod SReal SCalc SGen SValmod PArith PStats PCache PGenRun PSort PEuclid PZdist PZgeo PZnorm POstinato POstinatoAny PValmodLb PValmod.
Set Implicit Arguments.
Open Scope nat_scope.

Lemma sub_split {T} a b (l : list T) i : sub (a + b) l i = sub a l i ++ sub b l (i + a).
Proof.
  unfold sub. revert i l. induction a as [|a IH]; intros i l.
  - cbn [Nat.add firstn app]. rewrite Nat.add_0_r. reflexivity.
  - specialize (IH (Datatypes.S i) l). cbn [Nat.add]. rewrite <- Nat.add_succ_comm. destruct (skipn i l) as [|x r] eqn:E.
    + assert (H : length l <= i) by (apply (f_equal (@length _)) in E; rewrite skipn_length in E; simpl in E; lia).
      rewrite !firstn_nil. rewrite skipn_all2 by lia. rewrite firstn_nil. reflexivity.
    + assert (E' : skipn (Datatypes.S i) l = r). { clear IH. revert l E. induction i as [|i IHi]; intros [|y l] E; cbn [skipn] in *; try discriminate; [congruence|]. apply IHi. exact E. }
      rewrite E' in IH. cbn [firstn app]. rewrite IH. reflexivity.
Qed.
Lemma psum_app f x x' y y' : length x = length y -> psum f (x ++ x') (y ++ y') = (psum f x y + psum f x' y')%R.
Proof. intro L. rewrite !psum_combine, combine_app', map_app, rsum_app by exact L. reflexivity. Qed.
Section Next.
  Variables (mem : nat -> num R) (memb : nat -> bool).
  Variable X : list R.
  Variables m0 m buffer : nat.
  Hypothesis H0 : 0 < m0.
  Hypothesis Hm : m0 <= m.
  Hypothesis HX : Datatypes.S m <= length X.
  (** No window is nearly flat *)
  Hypothesis clean : forall i, i + Datatypes.S m <= length X -> std (sub (Datatypes.S m) X i) = 0%R \/ (/ 10 ^ 6 < std (sub (Datatypes.S m) X i))%R.
  Notation m' := (Datatypes.S m).
  Notation n := (length X + 1 - m').
  Notation D' := (D 0 X m').
  Notation std0 := (fun i => std (sub m0 X i)).

  Lemma grown i k : m0 <= k -> sub k X i = sub m0 X i ++ sub (k - m0) X (i + m0).
  Proof. clear. intro H. rewrite <- sub_split. f_equal. lia. Qed.
  Lemma uneven_grown i : i < n -> std (sub m0 X i) <> 0%R -> uneven (sub m' X i) = true /\ (0 < std (sub m' X i))%R.
  Proof.
    intros Hi Hs. assert (P : (0 < std (sub m' X i))%R).
    { rewrite (@grown i m') by lia. apply std_extend_pos; [rewrite length_sub; lia|]. pose proof (std_nonneg (sub m0 X i)). lra. }
    split; [|exact P]. unfold uneven. destruct (clean i ltac:(lia)) as [E|E]; [lra|]. destruct (Rltb_spec (/ 10 ^ 6) (std (sub m' X i))); [reflexivity|lra].
  Qed.
  (** A lower bound of the distance, up to the clipping of small distances *)
  Lemma cover q c a b : q < n -> c < n -> std (sub m0 X q) <> 0%R -> std (sub m0 X c) <> 0%R ->
    (D' a b <= bound (sub m0 X q) (sub m0 X c) / std (sub m' X c))%R -> (D' a b <= D' q c)%R.
  Proof.
    intros Hq Hc Sq Sc Hle. destruct (uneven_grown Hq Sq) as [Uq Pq]. destruct (uneven_grown Hc Sc) as [Uc Pc].
    pose proof (std_nonneg (sub m0 X q)). pose proof (std_nonneg (sub m0 X c)).
    assert (B : (bound (sub m0 X q) (sub m0 X c) / std (sub m' X c) <= euclid (znorm (sub m' X q)) (znorm (sub m' X c)))%R).
    { rewrite (@grown q m'), (@grown c m') by lia. apply bound_sound; rewrite ?length_sub; try lia; lra. }
    unfold D in *. rewrite !zdist_clip in *. set (z := zsq 0 (sub m' X a) (sub m' X b)) in *.
    assert (Ez : zsq 0 (sub m' X q) (sub m' X c) = sqd (znorm (sub m' X q)) (znorm (sub m' X c))) by (unfold zsq; rewrite Uq, Uc; cbn [orb]; rewrite no_noise; lra).
    rewrite Ez. destruct (Rlt_dec z eps12) as [Hz|Hz].
    - replace (clip12 z) with 0%R; [apply clip12_nonneg|]. unfold clip12. fold eps12. destruct (Rltb_spec z eps12); [reflexivity|contradiction].
    - apply clip12_mono. assert (Ec : clip12 z = sqrt z). { unfold clip12. fold eps12. destruct (Rltb_spec z eps12); [contradiction|reflexivity]. }
      rewrite Ec in Hle. apply sqrt_le_0; [pose proof eps12_pos; lra|apply sqd_nonneg|]. unfold euclid in B. lra.
  Qed.

  Definition valid (c q : nat) : Prop := apart buffer q c /\ q < n.
  Definition scan_inv (c : nat) (pd : list nat) (st : list (@lbentry R) * num R * option (@lbentry R) * num R) : Prop :=
    let '(done, bd, be, lb) := st in
    Forall2 (entry_ok X buffer m0 m' c) done pd /\
    ((bd = PInf /\ be = None /\ forall q, In q pd -> ~ valid c q) \/
     (exists q e, In q pd /\ valid c q /\ bd = Fin (D' q c) /\ be = Some e /\ lb_q e = q /\ lb_s e = c /\ forall q', In q' pd -> valid c q' -> (D' q c <= D' q' c)%R)) /\
    (lb = Fin (-1)%R \/ exists q, In q pd /\ valid c q /\ std (sub m0 X q) <> 0%R /\ lb = Fin (bound (sub m0 X q) (sub m0 X c) / std (sub m' X c))%R) /\
    (forall q, In q pd -> valid c q -> std (sub m0 X q) <> 0%R -> fleb (Fin (bound (sub m0 X q) (sub m0 X c) / std (sub m' X c))%R) lb = true).

  Lemma scan_entry_ok g c pd st e q : vready 0 X m' g -> c < n -> std (sub m0 X c) <> 0%R -> entry_ok X buffer m0 m c e q -> scan_inv c pd st ->
    exists st', scan_entry g (fin X) m' n buffer c st e = Ok st' /\ scan_inv c (pd ++ [q]) st'.
  Proof.
    intros Hg Hc Sc (E1 & E2 & E3 & E4) Hst. destruct st as [[[done bd] be] lb]. destruct Hst as (I1 & I2 & I3 & I4). unfold scan_entry. rewrite E1, E2.
    assert (SK : ~ valid c q -> scan_inv c (pd ++ [q]) (done ++ [e], bd, be, lb)).
    { intro Hv. split; [|split; [|split]].
      - apply Forall2_app; [exact I1|]. constructor; [|constructor]. repeat (split; [assumption|]). intros Ha Hq _. exfalso. apply Hv. split; [exact Ha|lia].
      - destruct I2 as [(B1 & B2 & B3)|(q0 & e0 & B1 & B2 & B3 & B4 & B5 & B6 & B7)]; [left|right].
        + repeat (split; [assumption|]). intros q' Hq'. apply in_app_or in Hq'. destruct Hq' as [Hq'|[<-|[]]]; auto.
        + exists q0, e0. split; [apply in_or_app; left; exact B1|]. repeat (split; [assumption|]). intros q' Hq' Hv'. apply in_app_or in Hq'. destruct Hq' as [Hq'|[<-|[]]]; [auto|contradiction].
      - destruct I3 as [I3|(q0 & B1 & B2)]; [left; exact I3|right; exists q0; split; [apply in_or_app; left; exact B1|exact B2]].
      - intros q' Hq' Hv' Sq'. apply in_app_or in Hq'. destruct Hq' as [Hq'|[<-|[]]]; [auto|contradiction]. }
    destruct (Nat.leb_spec (q - c + (c - q)) buffer) as [L|L].
    { eexists. split; [reflexivity|]. apply SK. intros [[Ha|Ha] _]; lia. }
    destruct (Nat.leb_spec n q) as [Lq|Lq]; cbn [orb].
    { eexists. split; [reflexivity|]. apply SK. intros [_ Hq]. lia. }
    destruct (Nat.leb_spec n c) as [Lc|_]; [lia|].
    assert (Ha : apart buffer q c) by (unfold apart; lia). assert (Hv : valid c q) by (split; assumption).
    assert (Gx : forall i, i < n -> getitem (fin X) (i + m' - 1) = Ok (Fin (nth (i + m) X 0%R))).
    { intros i Hi. unfold getitem. rewrite nth_error_map. replace (i + m' - 1) with (i + m) by lia. rewrite (nth_error_nth' X 0%R) by lia. reflexivity. }
    rewrite (Gx q Lq), (Gx c Hc). cbn [bind]. rewrite (E4 Ha) by lia. cbn [fmul fadd nmul nadd NumR lb_q lb_s lb_base lb_dot].
    assert (Ed : (dotp (sub m X q) (sub m X c) + nth (q + m) X 0 * nth (c + m) X 0)%R = dotp (sub m' X q) (sub m' X c)).
    { rewrite !(@sub_tail _ m X _ 0%R) by lia. unfold dotp. rewrite psum_app by (rewrite !length_sub; lia). unfold psum at 3, rsum. cbn. lra. }
    rewrite Ed, (@vready_single mem memb 0 X m' ltac:(lia) HX g q c Hg Lq Hc). cbn [bind].
    destruct (vready_views Hg) as (_ & _ & V2). rewrite V2.
    set (e' := mkLb q c (lb_base e) (Fin (dotp (sub m' X q) (sub m' X c)))).
    assert (Oe : entry_ok X buffer m0 m' c e' q) by (repeat (split; [reflexivity || assumption|]); reflexivity).
    set (nb := if fltb (Fin (D' q c)) bd then (Fin (D' q c), Some e') else (bd, be)).
    fold e'. fold nb. rewrite getitem_map_seq by exact Hc. cbn [bind].
    destruct nb as [bd' be'] eqn:Enb. eexists. split; [reflexivity|]. split; [apply Forall2_app; [exact I1|constructor; [exact Oe|constructor]]|]. split; [|split].
    - right. destruct I2 as [(B1 & B2 & B3)|(q0 & e0 & B1 & B2 & B3 & B4 & B5 & B6 & B7)]; subst bd be.
      + unfold nb in Enb. cbn [fltb] in Enb. injection Enb as <- <-. exists q, e'. split; [apply in_or_app; right; left; reflexivity|]. repeat (split; [reflexivity || assumption|]).
        intros q' Hq' Hv'. apply in_app_or in Hq'. destruct Hq' as [Hq'|[<-|[]]]; [destruct (B3 q' Hq' Hv')|apply Rle_refl].
      + unfold nb in Enb. cbn [fltb nltb NumR] in Enb. destruct (Rltb_spec (D' q c) (D' q0 c)) as [Hl|Hl]; injection Enb as <- <-.
        * exists q, e'. split; [apply in_or_app; right; left; reflexivity|]. repeat (split; [reflexivity || assumption|]).
          intros q' Hq' Hv'. apply in_app_or in Hq'. destruct Hq' as [Hq'|[<-|[]]]; [specialize (B7 q' Hq' Hv'); lra|apply Rle_refl].
        * exists q0, e0. split; [apply in_or_app; left; exact B1|]. repeat (split; [reflexivity || assumption|]).
          intros q' Hq' Hv'. apply in_app_or in Hq'. destruct Hq' as [Hq'|[<-|[]]]; [auto|lra].
    - assert (Pc : (0 < std (sub m' X c))%R) by (apply uneven_grown; assumption).
      assert (Ik : pymax lb (fdiv (lb_base e) (Fin (std (sub m' X c)))) = lb \/
        (std (sub m0 X q) <> 0%R /\ pymax lb (fdiv (lb_base e) (Fin (std (sub m' X c)))) = Fin (bound (sub m0 X q) (sub m0 X c) / std (sub m' X c))%R)).
      { rewrite E3. unfold key. rewrite (proj2 (apartb_spec buffer q c) Ha). destruct (zero_dec (std (sub m0 X q))) as [Z|Z].
        - left. unfold pymax. destruct lb; reflexivity.
        - rewrite fdiv_fin by exact Pc. unfold pymax. destruct (fltb lb _); [right; split; [exact Z|reflexivity]|left; reflexivity]. }
      destruct Ik as [->|[Sq ->]]; [|right; exists q; split; [apply in_or_app; right; left; reflexivity|]; repeat (split; [assumption|]); reflexivity].
      destruct I3 as [I3|(q1 & B1 & B2)]; [left; exact I3|right; exists q1; split; [apply in_or_app; left; exact B1|exact B2]].
    - assert (Pc : (0 < std (sub m' X c))%R) by (apply uneven_grown; assumption).
      assert (Fl : exists v, lb = Fin v) by (destruct I3 as [->|(q1 & _ & _ & _ & ->)]; eauto). destruct Fl as (v & ->).
      assert (Mono : fleb (Fin v) (pymax (Fin v) (fdiv (lb_base e) (Fin (std (sub m' X c))))) = true).
      { unfold pymax. destruct (fltb (Fin v) _) eqn:EF; [|cbn [fleb fltb nltb NumR]; rewrite (proj2 (Rltb_false v v)) by lra; reflexivity].
        destruct (fdiv _ _) as [| |x|]; try discriminate; [|reflexivity]. cbn [fleb fltb nltb NumR] in *. apply Rltb_true in EF. rewrite (proj2 (Rltb_false x v)) by lra. reflexivity. }
      intros q' Hq' Hv' Sq'. apply in_app_or in Hq'. destruct Hq' as [Hq'|[<-|[]]].
      + specialize (I4 q' Hq' Hv' Sq'). set (x := (bound (sub m0 X q') (sub m0 X c) / std (sub m' X c))%R) in *. destruct (pymax (Fin v) _) as [| |y|]; try discriminate; [|reflexivity].
        cbn [fleb fltb nltb NumR] in *. apply negb_true_iff, Rltb_false in I4, Mono. apply negb_true_iff, Rltb_false. lra.
      + rewrite E3. unfold key. rewrite (proj2 (apartb_spec buffer q c) Ha). destruct (zero_dec (std (sub m0 X q))) as [Z|Z]; [contradiction|]. rewrite fdiv_fin by exact Pc. unfold pymax. cbn [fltb nltb NumR].
        set (x := (bound (sub m0 X q) (sub m0 X c) / std (sub m' X c))%R). destruct (Rltb_spec v x); cbn [fleb fltb nltb NumR]; apply negb_true_iff, Rltb_false; lra.
  Qed.
  Lemma scan_fold g c l : vready 0 X m' g -> c < n -> std (sub m0 X c) <> 0%R -> forall ps pd st, Forall2 (entry_ok X buffer m0 m c) l ps -> scan_inv c pd st ->
    exists st', foldM (scan_entry g (fin X) m' n buffer c) l st = Ok st' /\ scan_inv c (pd ++ ps) st'.
  Proof.
    intros Hg Hc Sc. induction l as [|e l IH]; intros ps pd st F Hst; inversion F as [|? q ? ps' F1 F2]; subst.
    - exists st. rewrite app_nil_r. split; [reflexivity|exact Hst].
    - destruct (@scan_entry_ok g c pd st e q Hg Hc Sc F1 Hst) as (st1 & E1 & Hst1). cbn [foldM]. rewrite E1. cbn [bind].
      destruct (IH ps' (pd ++ [q]) st1 F2 Hst1) as (st2 & E2 & Hst2). exists st2. split; [exact E2|]. rewrite <- app_assoc in Hst2. exact Hst2.
  Qed.

  (** Column [c] has a match that is nearer than a lower bound of another match. *)
  Definition prunable (c : nat) : Prop := std (sub m0 X c) <> 0%R /\ exists q1 q2, valid c q1 /\ valid c q2 /\ std (sub m0 X q2) <> 0%R /\
    (D' q1 c < bound (sub m0 X q2) (sub m0 X c) / std (sub m' X c))%R.
  (** Every match of column [c] is at least as far as the distances up to [v]. *)
  Definition below (c : nat) (v : R) : Prop := (std (sub m0 X c) = 0%R -> v = (-1)%R) /\
    forall q, valid c q -> std (sub m0 X q) <> 0%R -> forall a b, (D' a b <= v)%R -> (D' a b <= D' q c)%R.

  Lemma scan_ok g c l : vready 0 X m' g -> c < n -> column_ok X buffer m0 m c l ->
    exists l' bd be v, scan_entries g (fin X) m' n buffer c l = Ok (l', bd, be, Fin v) /\ column_ok X buffer m0 m' c l' /\
    ((fltb bd (Fin v) = true /\ prunable c /\ exists q e, valid c q /\ bd = Fin (D' q c) /\ be = Some e /\ lb_q e = q /\ lb_s e = c /\
        forall q', valid c q' -> std (sub m0 X q') <> 0%R -> (D' q c <= D' q' c)%R) \/
     (fltb bd (Fin v) = false /\ below c v)) /\
    ((forall q, valid c q -> std (sub m0 X q) <> 0%R -> exists e, In e l /\ lb_q e = q) -> prunable c -> (forall q, valid c q -> std (sub m0 X q) = 0%R -> False) -> fltb bd (Fin v) = true).
  Proof.
    intros Hg Hc (Z & ps & rest & HP & HS & HF). unfold scan_entries. destruct (zero_dec (std (sub m0 X c))) as [Sc|Sc].
    - rewrite (Z Sc). cbn [foldM]. exists [], PInf, None, (-1)%R. split; [reflexivity|]. split; [split; [reflexivity|]; exists [], (seq 0 (length X + 1 - m0)); split; [reflexivity|split; [intros a b []|constructor]]|].
      split; [|intros _ [Sc' _]; contradiction].
      right. split; [reflexivity|]. split; [reflexivity|]. intros q _ _ a b Hab. pose proof (D_nonneg 0 X m' a b). lra.
    - destruct (@scan_fold g c l Hg Hc Sc ps [] ([], PInf, None, fofZ (-1)) HF) as ([[[l' bd] be] lb] & E & I1 & I2 & I3 & I4).
      { split; [constructor|]. split; [left; split; [reflexivity|split; [reflexivity|intros q []]]|split; [left; reflexivity|intros q []]]. }
      cbn [app] in *. rewrite E.
      assert (HI : forall q, valid c q -> In q ps \/ In q rest) by (intros q [_ Hq]; apply in_app_or, (Permutation_in _ (Permutation_sym HP)), in_seq; lia).
      assert (Ok' : column_ok X buffer m0 m' c l') by (split; [congruence|]; exists ps, rest; auto).
      (* what the lower bound says *)
      assert (HV : exists v, lb = Fin v /\ (v = (-1)%R \/ exists q, valid c q /\ std (sub m0 X q) <> 0%R /\ v = (bound (sub m0 X q) (sub m0 X c) / std (sub m' X c))%R) /\
        forall q, valid c q -> In q rest -> std (sub m0 X q) <> 0%R -> forall a b, (D' a b <= v)%R -> (D' a b <= D' q c)%R).
      { destruct I3 as [->|(q1 & B1 & B2 & B3 & ->)].
        - exists (-1)%R. split; [reflexivity|]. split; [left; reflexivity|]. intros q _ _ _ a b Hab. pose proof (D_nonneg 0 X m' a b). lra.
        - eexists. split; [reflexivity|]. split; [right; exists q1; auto|]. intros q Hv Hr Sq a b Hab. apply cover; try assumption; try apply Hv.
          apply Rle_trans with (1 := Hab). assert (Pc : (0 < std (sub m' X c))%R) by (apply uneven_grown; assumption). apply Rmult_le_compat_r; [left; apply Rinv_0_lt_compat; exact Pc|].
          specialize (HS q1 q B1 Hr). unfold key in HS. destruct B2 as [B2 _]. destruct Hv as [Hv _]. rewrite (proj2 (apartb_spec buffer q1 c) B2), (proj2 (apartb_spec buffer q c) Hv) in HS.
          destruct (zero_dec (std (sub m0 X q1))); [contradiction|]. destruct (zero_dec (std (sub m0 X q))); [contradiction|]. cbn [sort_le isnan fleb fltb nltb NumR] in HS. unfold sort_le in HS. cbn [isnan fleb fltb nltb NumR] in HS.
          apply negb_true_iff, Rltb_false in HS. exact HS. }
      destruct HV as (v & -> & HV1 & HV2). exists l', bd, be, v. split; [reflexivity|]. split; [exact Ok'|]. split.
      2: { intros Hall (_ & q1 & q2 & V1 & V2 & S2 & Hlt) Hnf.
           assert (HIn : forall q, valid c q -> In q ps).
           { intros q Hv. destruct (zero_dec (std (sub m0 X q))) as [Z0|Z0]; [destruct (Hnf q Hv Z0)|]. destruct (Hall q Hv Z0) as (e & He & <-). clear - HF He. induction HF as [|e' q' l ps Hq _ IH]; [destruct He|].
             destruct He as [<-|He]; [left; symmetry; apply Hq|right; auto]. }
           pose proof (I4 q2 (HIn q2 V2) V2 S2) as L2. cbn [fleb fltb nltb NumR] in L2. apply negb_true_iff, Rltb_false in L2.
           destruct I2 as [(_ & _ & B3)|(q & e & B1 & B2 & -> & _ & _ & _ & B7)]; [destruct (B3 q1 (HIn q1 V1) V1)|]. cbn [fltb nltb NumR]. apply Rltb_true. specialize (B7 q1 (HIn q1 V1) V1). lra. }
      destruct (fltb bd (Fin v)) eqn:EF; [left|right]; (split; [reflexivity|]).
      + destruct I2 as [(-> & _)|(q & e & B1 & B2 & -> & -> & B5 & B6 & B7)]; [discriminate|]. cbn [fltb nltb NumR] in EF. apply Rltb_true in EF. pose proof (D_nonneg 0 X m' q c) as N.
        split.
        * split; [exact Sc|]. destruct HV1 as [->|(q2 & C1 & C2 & ->)]; [lra|]. exists q, q2. auto.
        * exists q, e. repeat (split; [assumption || reflexivity|]). intros q' Hv' Sq'. destruct (HI q' Hv') as [Hp|Hr]; [auto|]. apply (HV2 q' Hv' Hr Sq'). lra.
      + split; [congruence|]. intros q Hv Sq a b Hab. destruct (HI q Hv) as [Hp|Hr]; [|exact (HV2 q Hv Hr Sq a b Hab)].
        destruct I2 as [(-> & -> & B3)|(q0 & e & B1 & B2 & -> & -> & B5 & B6 & B7)]; [destruct (B3 q Hp Hv)|].
        cbn [fltb nltb NumR] in EF. apply Rltb_false in EF. specialize (B7 q Hp Hv). lra.
  Qed.

  (** ** All columns *)
  Definition fpair (p : nat * R) : nat * num R := (fst p, Fin (snd p)).
  Definition pruned (iv : list (nat * R)) (k q c : nat) : Prop := c < k /\ ~ In c (map fst iv) /\ valid c q /\ std (sub m0 X q) <> 0%R.
  Lemma columns_ok g lists : vready 0 X m' g -> lists_ok X buffer m0 m lists -> forall k, k <= n ->
    exists lists' b iv, foldM (scan_column g (fin X) m' n buffer) (seq 0 k) (lists, (PInf, None), []) = Ok (lists', b, map fpair iv) /\
      (forall c, c < n -> exists l, nth_error lists' c = Some l /\ column_ok X buffer m0 (if c <? k then m' else m) c l) /\
      (forall c v, In (c, v) iv -> c < k /\ below c v) /\
      (forall c, c < k -> ~ In c (map fst iv) -> prunable c) /\
      binv D' n buffer (pruned iv k) b.
  Proof.
    intros Hg HL. induction k as [|k IH]; intro Hk.
    - exists lists, (PInf, None), []. split; [reflexivity|]. split; [|split; [intros c v []|split; [intros c Hc; lia|]]].
      + intros c Hc. destruct (HL c ltac:(lia)) as (l & El & Ol). exists l. split; [exact El|exact Ol].
      + left. split; [reflexivity|]. intros q c (Hc & _). lia.
    - destruct (IH ltac:(lia)) as (lists1 & b & iv & E & L1 & IV & PR & Hb). rewrite seq_S, foldM_app, E. cbn [bind foldM Nat.add].
      unfold scan_column. destruct (L1 k ltac:(lia)) as (l & El & Ol). rewrite Nat.ltb_irrefl in Ol. unfold getitem. rewrite El. cbn [bind].
      destruct (@scan_ok g k l Hg ltac:(lia) Ol) as (l' & bd & be & v & E' & Ol' & Hcase & _). rewrite E'. cbn [bind].
      assert (Hlen : k < length lists1) by (apply nth_error_Some; rewrite El; discriminate). rewrite setitem_ok by exact Hlen. cbn [bind].
      assert (L2 : forall c, c < n -> exists l0, nth_error (splice lists1 k [l']) c = Some l0 /\ column_ok X buffer m0 (if c <? Datatypes.S k then m' else m) c l0).
      { intros c Hc. rewrite nth_error_set1 by exact Hlen. destruct (Nat.eqb_spec c k) as [->|Hn].
        - exists l'. split; [reflexivity|]. destruct (Nat.ltb_spec k (Datatypes.S k)); [exact Ol'|lia].
        - destruct (L1 c Hc) as (l0 & El0 & Ol0). exists l0. split; [exact El0|]. replace (c <? Datatypes.S k) with (c <? k); [exact Ol0|]. destruct (Nat.ltb_spec c k), (Nat.ltb_spec c (Datatypes.S k)); auto; lia. }
      assert (Nk : ~ In k (map fst iv)). { intro Hin. apply in_map_iff in Hin. destruct Hin as ([c v0] & Ec & Hin). cbn [fst] in Ec. subst c. destruct (IV k v0 Hin) as [Hlt _]. lia. }
      destruct Hcase as [(EF & Hpr & q & e & Hv & -> & -> & Eq & Es & Hmin)|(EF & Hbel)]; rewrite EF.
      + exists (splice lists1 k [l']), (if fltb (Fin (D' q k)) (fst b) then (Fin (D' q k), Some (q, k)) else b), iv.
        split; [destruct (fltb (Fin (D' q k)) (fst b)); [rewrite Eq, Es|]; reflexivity|]. split; [exact L2|]. split; [|split].
        * intros c v0 Hin. destruct (IV c v0 Hin) as [A1 A2]. split; [lia|exact A2].
        * intros c Hc Hni. destruct (Nat.eq_dec c k) as [->|Hn]; [exact Hpr|]. apply PR; [lia|exact Hni].
        * destruct Hv as [Ha Hq]. assert (Hkn : k < n) by lia. eapply binv_weak; [|exact (binv_take Hb Hq Hkn Ha)]. intros q' c (Hc & Hni & Hv' & Sq'). destruct (Nat.eq_dec c k) as [->|Hn]; [right; auto|left].
          split; [lia|]. auto.
      + exists (splice lists1 k [l']), b, (iv ++ [(k, v)]). split; [rewrite map_app; reflexivity|]. split; [exact L2|]. split; [|split].
        * intros c v0 Hin. apply in_app_or in Hin. destruct Hin as [Hin|[Hin|[]]]; [destruct (IV c v0 Hin) as [A1 A2]; split; [lia|exact A2]|]. injection Hin as <- <-. split; [lia|exact Hbel].
        * intros c Hc Hni. rewrite map_app in Hni. apply PR; [|intro Hin; apply Hni, in_or_app; left; exact Hin].
          destruct (Nat.eq_dec c k) as [->|Hn]; [|lia]. exfalso. apply Hni, in_or_app. right. left. reflexivity.
        * eapply binv_weak; [|exact Hb]. intros q' c (Hc & Hni & Hv'). rewrite map_app in Hni. split; [|split; [intro Hin; apply Hni, in_or_app; left; exact Hin|exact Hv']].
          destruct (Nat.eq_dec c k) as [->|Hn]; [|lia]. exfalso. apply Hni, in_or_app. right. left. reflexivity.
  Qed.

  (** ** The columns that are calculated again *)
  Lemma best_start P b : binv D' n buffer P b -> fltb (Fin (-1)%R) (fst b) = true.
  Proof.
    clear. intros [[-> _]|(i & j & -> & _)]; [reflexivity|]. cbn [fst fltb nltb NumR]. apply Rltb_true. pose proof (D_nonneg 0 X m' i j). lra.
  Qed.
  Definition redone (iv : list (nat * R)) (q c : nat) : Prop := In c (map fst iv) /\ valid c q /\ (std (sub m0 X q) <> 0%R \/ std (sub m0 X c) = 0%R).
  Lemma recalculate_ok iv : (forall c v, In (c, v) iv -> c < n /\ below c v) -> forall g b P, vready 0 X m' g -> binv D' n buffer P b ->
    exists g' b', recalculate mem g buffer b (map fpair iv) = Ok (g', b') /\ binv D' n buffer (fun q c => P q c \/ redone iv q c) b'.
  Proof.
    clear clean. unfold recalculate. induction iv as [|[c v] iv IH]; intros HI g b P Hg Hb.
    - exists g, b. split; [reflexivity|]. eapply binv_weak; [|exact Hb]. intros q c [Hp|[[] _]]. exact Hp.
    - cbn [map foldM fpair fst snd]. destruct (HI c v (or_introl eq_refl)) as (Hc & Hflat & Hbel).
      assert (HI' : forall c v, In (c, v) iv -> c < n /\ below c v) by (intros; apply HI; right; assumption).
      destruct (fltb (Fin v) (fst b)) eqn:EF.
      + destruct (@try_column_ok mem memb 0 X m' ltac:(lia) HX buffer g c b P Hg Hc Hb) as (g1 & b1 & E1 & Hg1 & _ & _ & Hb1). rewrite E1. cbn [bind].
        destruct (IH HI' g1 b1 _ Hg1 Hb1) as (g2 & b2 & E2 & Hb2). exists g2, b2. split; [exact E2|]. eapply binv_weak; [|exact Hb2].
        intros q c' [Hp|(Hin & Hv & Hs)]; [left; left; exact Hp|]. destruct Hin as [<-|Hin]; [left; right; destruct Hv as [Ha Hq]; auto|right; split; [exact Hin|auto]].
      + cbn [bind]. assert (Hb1 : binv D' n buffer (fun q c' => P q c' \/ (c' = c /\ valid c q /\ std (sub m0 X q) <> 0%R)) b).
        { destruct Hb as [[-> Hp]|(i & j & -> & Hi & Hj & Ha & Hmin)]; [discriminate|]. right. exists i, j. repeat (split; [reflexivity || assumption|]). intros q c' [Hp|(-> & Hv & Sq)]; [auto|].
          apply (Hbel q Hv Sq). cbn [fst fltb nltb NumR] in EF. apply Rltb_false in EF. exact EF. }
        destruct (IH HI' g b _ Hg Hb1) as (g2 & b2 & E2 & Hb2). exists g2, b2. split; [exact E2|]. eapply binv_weak; [|exact Hb2].
        intros q c' [Hp|(Hin & Hv & Hs)]; [left; left; exact Hp|]. destruct Hin as [<-|Hin]; [|right; split; [exact Hin|auto]]. cbn [fst] in *.
        destruct Hs as [Hs|Hs]; [left; right; auto|]. rewrite (Hflat Hs) in EF. rewrite (best_start Hb) in EF. discriminate.
  Qed.

  (** Pairs that are covered either way round *)
  Lemma all_covered iv (P : nat -> nat -> Prop) b : (forall c v, In (c, v) iv -> c < n /\ below c v) -> (forall c, c < n -> ~ In c (map fst iv) -> prunable c) ->
    (forall q c, pruned iv n q c -> P q c) -> (forall q c, redone iv q c -> P q c) -> binv D' n buffer P b -> top_motif D' n buffer (snd b).
  Proof.
    clear clean. intros HI PR Hp Hr Hb.
    assert (Hcov : forall q c, q < n -> c < n -> apart buffer q c -> P q c \/ P c q).
    { intros q c Hq Hc Ha. assert (Hin : forall a, In a (map fst iv) \/ ~ In a (map fst iv)) by (intro a; destruct (in_dec Nat.eq_dec a (map fst iv)); auto).
      pose proof (apart_sym Ha) as Ha'. destruct (zero_dec (std (sub m0 X q))) as [Sq|Sq].
      - destruct (Hin q) as [Iq|Iq]; [|destruct (PR q Hq Iq); contradiction]. right. apply Hr. split; [exact Iq|]. split; [split; assumption|right; exact Sq].
      - left. destruct (Hin c) as [Ic|Ic]; [apply Hr|apply Hp]; repeat (split; [assumption || (split; assumption)|]); auto. }
    destruct Hb as [[-> H1]|(i & j & -> & Hi & Hj & Ha & Hmin)]; cbn [snd top_motif].
    - intros i j Hi Hj Ha. destruct (Hcov i j Hi Hj Ha) as [H|H]; exact (H1 _ _ H).
    - repeat (split; [assumption|]). intros i' j' Hi' Hj' Ha'. destruct (Hcov i' j' Hi' Hj' Ha') as [H|H]; [exact (Hmin _ _ H)|].
      rewrite (@D_sym 0 X m' ltac:(lia) i' j') by assumption. exact (Hmin _ _ H).
  Qed.

  Variable argsort : list (num R) -> list nat.
  Hypothesis Hsort : sorts argsort.
  Variable exceeds : nat -> nat -> bool.

  Lemma next_length_ok size lists : 0 < size -> lists_ok X buffer m0 m lists ->
    (exists lists' r m1, next_length mem memb argsort exceeds (fin X) (Fin 0%R) size buffer m' lists = Ok (lists', r) /\ top_motif D' n buffer r /\
      m0 <= m1 <= m' /\ lists_ok X buffer m1 m' lists') \/
    (next_length mem memb argsort exceeds (fin X) (Fin 0%R) size buffer m' lists = Err ValueError /\ forall c, c < n -> prunable c).
  Proof.
    intros Hs HL. unfold next_length. rewrite map_length. destruct (Nat.ltb_spec (length X + 1) m'); [lia|].
    destruct (@vready_prepare mem memb 0 X m' ltac:(lia) HX (Rle_refl 0)) as (g & Eg & Hg). rewrite Eg. cbn [bind].
    destruct (@columns_ok g lists Hg HL n (Nat.le_refl _)) as (lists' & b & iv & E & L & IV & PR & Hb). rewrite E. cbn [bind].
    assert (HL' : lists_ok X buffer m0 m' lists').
    { intros c Hc. destruct (L c ltac:(lia)) as (l & El & Ol). exists l. split; [exact El|]. destruct (Nat.ltb_spec c n); [exact Ol|lia]. }
    assert (Hrest : forall found : bool, (found = true -> top_motif D' n buffer (snd b)) ->
      exists lists'' r m1, (if found then Ok (lists', snd b) else if exceeds (length (map fpair iv)) n then full_iteration mem argsort g size buffer
         else do r <- recalculate mem g buffer b (map fpair iv); Ok (lists', snd (snd r))) = Ok (lists'', r) /\ top_motif D' n buffer r /\ m0 <= m1 <= m' /\ lists_ok X buffer m1 m' lists'').
    { intros found Hf. destruct found.
      - exists lists', (snd b), m0. split; [reflexivity|]. split; [apply Hf; reflexivity|]. split; [lia|exact HL'].
      - destruct (exceeds (length (map fpair iv)) n).
        + destruct (@full_ok mem memb 0 X m' ltac:(lia) HX buffer argsort Hsort g size Hg Hs) as (l2 & r & E2 & T2 & _ & L2 & _). exists l2, r, m'. split; [exact E2|]. split; [exact T2|]. split; [lia|exact L2].
        + destruct (@recalculate_ok iv IV g b _ Hg Hb) as (g2 & b2 & E2 & Hb2). rewrite E2. cbn [bind snd]. exists lists', (snd b2), m0. split; [reflexivity|].
          split; [|split; [lia|exact HL']]. eapply all_covered with (iv := iv); [exact IV|exact PR| | |exact Hb2]; cbv beta; auto. }
    destruct (snd b) as [[i j]|] eqn:Eb; [|left; cbn [bind]; rewrite <- Eb in *; apply (Hrest false); discriminate].
    destruct iv as [|p iv].
    - right. cbn [map amin bind]. split; [reflexivity|]. intros c Hc. apply PR; [exact Hc|intros []].
    - left. remember (p :: iv) as iv0 eqn:Eiv. rewrite map_map. change (map (fun x => snd (fpair x)) iv0) with (map (fun x => Fin (snd x)) iv0). rewrite <- (map_map snd (@Fin R)).
      rewrite amin_fin by (subst iv0; discriminate). cbn [bind]. rewrite <- Eb in *. apply Hrest. intro Hle.
      destruct Hb as [[-> _]|(i0 & j0 & Eb0 & Hi & Hj & Ha & Hmin)]; [discriminate|]. rewrite Eb0 in Hle. cbn [fst fleb fltb nltb NumR] in Hle. apply negb_true_iff, Rltb_false in Hle.
      assert (Hlow : forall c v, In (c, v) iv0 -> (D' i0 j0 <= v)%R). { intros c v Hin. apply Rle_trans with (1 := Hle). apply rmin_le. apply in_map_iff. exists (c, v). auto. }
      apply all_covered with (iv := iv0) (P := fun q c => pruned iv0 n q c \/ redone iv0 q c); auto. right. exists i0, j0. split; [exact Eb0|]. repeat (split; [assumption|]).
      intros q c [Hp|(Hin & Hv & Hsd)]; [exact (Hmin _ _ Hp)|]. apply in_map_iff in Hin. destruct Hin as ([c0 v] & Ec & Hin). cbn [fst] in Ec. subst c0. destruct (IV c v Hin) as (Hc & Hflat & Hbel).
      pose proof (Hlow c v Hin) as Hv0. destruct Hsd as [Sq|Sc]; [apply (Hbel q Hv Sq); exact Hv0|]. rewrite (Hflat Sc) in Hv0. pose proof (D_nonneg 0 X m' i0 j0). lra.
  Qed.

  (** ** Every column can be pruned *)
  Definition all_listed (lists : list (list (@lbentry R))) : Prop :=
    forall c l, c < n -> nth_error lists c = Some l -> forall q, valid c q -> std (sub m0 X q) <> 0%R -> exists e, In e l /\ lb_q e = q.
  Lemma columns_stuck g lists : vready 0 X m' g -> lists_ok X buffer m0 m lists -> all_listed lists -> (forall c, c < n -> prunable c) -> forall k, k <= n ->
    exists lists' b, foldM (scan_column g (fin X) m' n buffer) (seq 0 k) (lists, (PInf, None), []) = Ok (lists', b, []) /\
      (forall c, k <= c -> nth_error lists' c = nth_error lists c) /\ (0 < k -> exists v p, b = (Fin v, Some p)) /\ (k = 0 -> b = (PInf, None)).
  Proof.
    intros Hg HL HA HP. induction k as [|k IH]; intro Hk.
    - exists lists, (PInf, None). split; [reflexivity|]. split; [reflexivity|]. split; [intro; lia|reflexivity].
    - destruct (IH ltac:(lia)) as (lists1 & b & E & L1 & B1 & B2). rewrite seq_S, foldM_app, E. cbn [bind foldM Nat.add].
      unfold scan_column. destruct (HL k ltac:(lia)) as (l & El & Ol). unfold getitem. rewrite (L1 k (Nat.le_refl k)), El. cbn [bind].
      destruct (@scan_ok g k l Hg ltac:(lia) Ol) as (l' & bd & be & v & E' & Ol' & Hcase & Hforce). rewrite E'. cbn [bind].
      assert (Hlen : k < length lists1) by (apply nth_error_Some; rewrite (L1 k (Nat.le_refl k)), El; discriminate). rewrite setitem_ok by exact Hlen. cbn [bind].
      assert (EF : fltb bd (Fin v) = true). { apply Hforce; [apply (HA k l); [lia|exact El]|apply HP; lia|]. intros q [_ Hq] Z. destruct (HP q Hq) as [Z' _]. contradiction. }
      rewrite EF in *. destruct Hcase as [(_ & _ & q & e & Hv & -> & -> & Eq & Es & _)|(EF' & _)]; [|discriminate].
      assert (L2 : forall c, Datatypes.S k <= c -> nth_error (splice lists1 k [l']) c = nth_error lists c) by (intros c Hc; rewrite nth_error_set1 by exact Hlen; destruct (Nat.eqb_spec c k); [lia|apply L1; lia]).
      destruct (fltb (Fin (D' q k)) (fst b)) eqn:E2; (eexists; eexists; split; [reflexivity|]; split; [exact L2|]; split; [|discriminate]); intros _; [eauto|].
      destruct k as [|k]; [rewrite (B2 eq_refl) in E2; discriminate|]. apply B1. lia.
  Qed.
  Lemma next_length_stuck size lists : lists_ok X buffer m0 m lists -> all_listed lists -> (forall c, c < n -> prunable c) ->
    next_length mem memb argsort exceeds (fin X) (Fin 0%R) size buffer m' lists = Err ValueError.
  Proof.
    clear Hsort. intros HL HA HP. unfold next_length. rewrite map_length. destruct (Nat.ltb_spec (length X + 1) m'); [lia|].
    destruct (@vready_prepare mem memb 0 X m' ltac:(lia) HX (Rle_refl 0)) as (g & Eg & Hg). rewrite Eg. cbn [bind].
    destruct (@columns_stuck g lists Hg HL HA HP n (Nat.le_refl _)) as (lists' & b & E & _ & B & _). rewrite E. cbn [bind].
    destruct (B ltac:(lia)) as (v & p & ->). reflexivity.
  Qed.
End Next.

(** ** All lengths *)
Section Lengths.
  Variables (mem : nat -> num R) (memb : nat -> bool).
  Variable X : list R.
  Variables mn mx size : nat.
  Hypothesis Hmn : 2 <= mn <= mx.
  Hypothesis Hmx : mx <= length X.
  Hypothesis Hsize : 0 < size.
  Hypothesis clean : forall m i, mn <= m <= mx -> i + m <= length X -> std (sub m X i) = 0%R \/ (/ 10 ^ 6 < std (sub m X i))%R.
  Variable argsort : list (num R) -> list nat.
  Hypothesis Hsort : sorts argsort.
  Variable exceeds : nat -> nat -> bool.
  Notation buffer := ((mn + 1) / 2).
  Notation found := (find_variable_length_motifs mem memb argsort exceeds (fin X) (Z.of_nat mn) (Z.of_nat mx) (Z.of_nat size) (Fin 0%R)).
  Notation top m r := (top_motif (D 0 X m) (length X + 1 - m) buffer r).

  Lemma lengths_ok k : mn + k <= mx -> forall lists motifs,
    lists_ok X buffer mn mn lists -> length motifs = 1 -> top mn (nth 0 motifs None) ->
    (exists lists' motifs' m1, foldM (fun st m => let '(lists, motifs) := st in do r <- next_length mem memb argsort exceeds (fin X) (Fin 0%R) size buffer m lists; Ok (fst r, motifs ++ [snd r]))
        (seq (mn + 1) k) (lists, motifs) = Ok (lists', motifs') /\ mn <= m1 <= mn + k /\ lists_ok X buffer m1 (mn + k) lists' /\ length motifs' = Datatypes.S k /\
        forall j, j <= k -> top (mn + j) (nth j motifs' None)) \/
    (foldM (fun st m => let '(lists, motifs) := st in do r <- next_length mem memb argsort exceeds (fin X) (Fin 0%R) size buffer m lists; Ok (fst r, motifs ++ [snd r]))
        (seq (mn + 1) k) (lists, motifs) = Err ValueError /\
     exists m0 j, mn <= m0 <= mn + j /\ j < k /\ forall c, c < length X + 1 - Datatypes.S (mn + j) -> prunable X m0 (mn + j) buffer c).
  Proof.
    destruct Hmn as [Hmn2 Hmnx]. induction k as [|k IH]; intros Hk lists motifs HL HM HT.
    - left. exists lists, motifs, mn. rewrite Nat.add_0_r. split; [reflexivity|]. split; [lia|]. split; [exact HL|]. split; [exact HM|]. intros j Hj. replace j with 0 by lia. rewrite Nat.add_0_r. exact HT.
    - rewrite seq_S, foldM_app. destruct (IH ltac:(lia) lists motifs HL HM HT) as [(lists1 & motifs1 & m1 & E & Hm1 & HL1 & HM1 & HT1)|(E & m0 & j & A1 & A2 & A3)].
      + rewrite E. cbn [bind foldM]. replace (mn + 1 + k) with (Datatypes.S (mn + k)) by lia.
        destruct (Nat.le_gt_cases (Datatypes.S (mn + k)) (length X)) as [HX|HX].
        * destruct (@next_length_ok mem memb X m1 (mn + k) buffer ltac:(lia) ltac:(lia) HX (fun i Hi => @clean (Datatypes.S (mn + k)) i ltac:(lia) Hi) argsort Hsort exceeds size lists1 Hsize HL1)
            as [(lists2 & r & m2 & E2 & T2 & Hm2 & HL2)|(E2 & HP)]; rewrite E2; cbn [bind fst snd].
          -- left. exists lists2, (motifs1 ++ [r]), m2. replace (mn + Datatypes.S k) with (Datatypes.S (mn + k)) by lia. split; [reflexivity|]. split; [lia|]. split; [exact HL2|]. split; [rewrite app_length; simpl; lia|].
             intros j Hj. destruct (Nat.eq_dec j (Datatypes.S k)) as [->|Hn].
             ++ rewrite app_nth2 by lia. rewrite HM1, Nat.sub_diag. replace (mn + Datatypes.S k) with (Datatypes.S (mn + k)) by lia. exact T2.
             ++ rewrite app_nth1 by lia. apply HT1. lia.
          -- right. split; [reflexivity|]. exists m1, k. split; [lia|]. split; [lia|exact HP].
        * exfalso. lia.
      + right. rewrite E. cbn [bind]. split; [reflexivity|]. exists m0, j. split; [exact A1|]. split; [lia|exact A3].
  Qed.

  Lemma start_ok : exists g, zn_prepare mem memb (Fin 0%R) 2 mn (fin X) None = Ok g /\ vready 0 X mn g.
  Proof. destruct Hmn as [H1 H2]. apply vready_prepare; [lia|lia|apply Rle_refl]. Qed.
  Lemma found_ok : (exists r, found = Ok r /\ length r = mx + 1 - mn /\ forall j, mn + j <= mx -> top (mn + j) (nth j r None)) \/
    (found = Err ValueError /\ exists m0 m, mn <= m0 <= m /\ m < mx /\ forall c, c < length X + 1 - Datatypes.S m -> prunable X m0 m buffer c).
  Proof.
    destruct start_ok as (g & Eg & Hg). pose proof Hmn as [Hmn2 Hmnx]. unfold find_variable_length_motifs.
    destruct (Z.ltb_spec (Z.of_nat mn) 2); [lia|]. destruct (Z.ltb_spec (Z.of_nat mx) (Z.of_nat mn)); [lia|]. destruct (Z.ltb_spec (Z.of_nat size) 0); [lia|].
    rewrite !Nat2Z.id, map_length. destruct (Nat.ltb_spec (length X + 1) mn); [lia|]. rewrite Eg. cbn [bind].
    destruct (@full_ok mem memb 0 X mn ltac:(lia) ltac:(lia) buffer argsort Hsort g size Hg Hsize) as (lists & r & E & T & _ & L & _). rewrite E. cbn [bind fst snd].
    destruct (@lengths_ok (mx - mn) ltac:(lia) lists [r] L eq_refl T) as [(l2 & ms & m1 & E2 & _ & _ & HM & HT)|(E2 & m0 & j & A1 & A2 & A3)]; rewrite E2; cbn [bind snd].
    - left. exists ms. split; [reflexivity|]. split; [lia|]. intros j Hj. apply HT. lia.
    - right. split; [reflexivity|]. exists m0, (mn + j). split; [exact A1|]. split; [lia|exact A3].
  Qed.
  Lemma found_stuck : length X + 1 - mn < size -> mn < mx -> (forall c, c < length X + 1 - Datatypes.S mn -> prunable X mn mn buffer c) -> found = Err ValueError.
  Proof.
    intros Hbig Hlt HP. destruct start_ok as (g & Eg & Hg). pose proof Hmn as [Hmn2 Hmnx]. unfold find_variable_length_motifs.
    destruct (Z.ltb_spec (Z.of_nat mn) 2); [lia|]. destruct (Z.ltb_spec (Z.of_nat mx) (Z.of_nat mn)); [lia|]. destruct (Z.ltb_spec (Z.of_nat size) 0); [lia|].
    rewrite !Nat2Z.id, map_length. destruct (Nat.ltb_spec (length X + 1) mn); [lia|]. rewrite Eg. cbn [bind].
    destruct (@full_ok mem memb 0 X mn ltac:(lia) ltac:(lia) buffer argsort Hsort g size Hg Hsize) as (lists & r & E & T & HLen & L & EN). rewrite E. cbn [bind fst snd].
    assert (Es : seq (mn + 1) (mx - mn) = Datatypes.S mn :: seq (Datatypes.S (Datatypes.S mn)) (mx - mn - 1)) by (replace (mx - mn) with (Datatypes.S (mx - mn - 1)) at 1 by lia; cbn [seq]; rewrite Nat.add_1_r; reflexivity).
    rewrite Es. cbn [foldM].
    rewrite (@next_length_stuck mem memb X mn mn buffer ltac:(lia) ltac:(lia) ltac:(lia) (fun i Hi => @clean (Datatypes.S mn) i ltac:(lia) Hi) argsort exceeds size lists); [reflexivity|exact L| |exact HP].
    intros c l Hcn El q [Ha Hq] Sq. destruct (EN c l El) as (_ & [Z|[Z|Z]]).
    - destruct (HP c Hcn); contradiction.
    - exfalso. assert (Hc : c < length lists) by (apply nth_error_Some; rewrite El; discriminate). destruct (L c ltac:(lia)) as (l0 & El0 & _ & ps & rest & P1 & _ & F). rewrite El0 in El. injection El as ->.
      apply Permutation_length in P1. rewrite app_length, seq_length in P1. apply forall2_length in F. lia.
    - apply Z; [lia|exact Ha|exact Sq].
  Qed.
End Lengths.

(** * POstinato: find_consensus_motif on finite data *)
From Coq Require Import QArith Reals Lra Sorted Permutation.
From Verif Require Import Np NpFacts MRing PRing MUtil MArith MStats MCache MZnorm MCalc MOstinato SReal SCalc SGen SOstinato PArith PStats PCache PGenRun PZdist PZgeo PZnorm.
Set Implicit Arguments.
Open Scope nat_scope.

(** ** Minima *)
Fixpoint rmin_from (l : list R) (b : R) : R := match l with [] => b | x :: l => rmin_from l (if Rltb x b then x else b) end.
Definition rmin (l : list R) : R := match l with [] => 0%R | x :: l => rmin_from l x end.
Lemma min_from_fin l : forall b, min_from (fin l) (Fin b) = Fin (rmin_from l b).
Proof. induction l as [|x l IH]; intro b; [reflexivity|]. cbn [map min_from rmin_from isnan negb andb orb fltb nltb NumR]. destruct (Rltb x b); apply IH. Qed.
Lemma amin_fin l : l <> [] -> amin (fin l) = Ok (Fin (rmin l)).
Proof. destruct l as [|x l]; [congruence|]. intros _. cbn [map amin rmin]. rewrite min_from_fin. reflexivity. Qed.
Lemma rmin_from_spec l : forall b, In (rmin_from l b) (b :: l) /\ (rmin_from l b <= b)%R /\ forall x, In x l -> (rmin_from l b <= x)%R.
Proof.
  induction l as [|y l IH]; intro b; cbn [rmin_from].
  - split; [left; reflexivity|]. split; [apply Rle_refl|]. intros x [].
  - destruct (Rltb_spec y b) as [H|H].
    + destruct (IH y) as (I1 & I2 & I3). split; [right; exact I1|]. split; [lra|]. intros x [<-|Hx]; auto.
    + destruct (IH b) as (I1 & I2 & I3). split; [destruct I1 as [I1|I1]; [left; exact I1|right; right; exact I1]|]. split; [exact I2|]. intros x [<-|Hx]; [lra|auto].
Qed.
Lemma rmin_in l : l <> [] -> In (rmin l) l.
Proof. destruct l as [|x l]; [congruence|]. intros _. apply rmin_from_spec. Qed.
Lemma rmin_le l x : In x l -> (rmin l <= x)%R.
Proof. destruct l as [|y l]; [intros []|]. cbn [rmin]. destruct (rmin_from_spec l y) as (_ & H1 & H2). intros [<-|H]; auto. Qed.

Lemma least_unique P f v v' : least P f v -> least P f v' -> v = v'.
Proof. intros [(i & Hi & <-) H1] [(j & Hj & <-) H2]. apply Rle_antisym; auto. Qed.
Lemma greatest_unique P f v v' : greatest P f v -> greatest P f v' -> v = v'.
Proof. intros [(i & Hi & <-) H1] [(j & Hj & <-) H2]. apply Rle_antisym; auto. Qed.

(** ** Dictionaries of generators *)
Lemma same_refl k : same k k = true.
Proof. unfold same. rewrite !Nat.eqb_refl. reflexivity. Qed.
Lemma same_eq a b : same a b = true -> a = b.
Proof. destruct a as [a1 a2], b as [b1 b2]. unfold same. cbn [fst snd]. intro H. apply andb_true_iff in H. destruct H as [H1%Nat.eqb_eq H2%Nat.eqb_eq]. congruence. Qed.
Lemma same_sym a b : same a b = same b a.
Proof. unfold same. rewrite (Nat.eqb_sym (fst a)), (Nat.eqb_sym (snd a)). reflexivity. Qed.
Lemma dict_get_set {A} (d : @gendict A) k g g0 k' : dict_get d k = Ok g0 -> dict_get (dict_set d k g) k' = if same k k' then Ok g else dict_get d k'.
Proof.
  unfold dict_get. induction d as [|[k1 g1] d IH]; cbn [find]; [discriminate|]. cbn [dict_set map find fst].
  destruct (same k k1) eqn:E1; cbn [fst snd].
  - intros _. apply same_eq in E1. subst k1. destruct (same k' k) eqn:E2; rewrite same_sym, E2; cbn [snd]; [reflexivity|].
    rewrite same_sym in E2. clear IH. induction d as [|[k2 g2] d IH]; [reflexivity|]. cbn [map find fst]. destruct (same k k2) eqn:E3; cbn [find fst].
    + apply same_eq in E3. subst k2. rewrite same_sym, E2. exact IH.
    + destruct (same k' k2); [reflexivity|exact IH].
  - intro H. specialize (IH H). destruct (same k' k1) eqn:E2; cbn [snd].
    + apply same_eq in E2. subst k1. rewrite E1. reflexivity.
    + exact IH.
Qed.
Lemma dict_get_snoc {A} (d : @gendict A) k g k' : dict_get (d ++ [(k, g)]) k' = match dict_get d k' with Ok g' => Ok g' | Err _ => if same k k' then Ok g else Err KeyError end.
Proof.
  unfold dict_get. induction d as [|[k1 g1] d IH]; cbn [app find fst].
  - rewrite (same_sym k k'). destruct (same k' k); reflexivity.
  - destruct (same k' k1); [reflexivity|exact IH].
Qed.

(** ** The best result so far, over the subsequences in [P] *)
Definition best_inv (rad : nat -> nat -> R) (P : nat -> nat -> Prop) (b : @cmresult R) : Prop :=
  (b = cm_start /\ forall s i, ~ P s i) \/
  (exists s i, b = mkCm (Fin (rad s i)) (Z.of_nat s) (Z.of_nat i) /\ P s i /\ forall s' i', P s' i' -> (rad s i <= rad s' i')%R).
Lemma best_inv_ext rad (P P' : nat -> nat -> Prop) b : (forall s i, P s i <-> P' s i) -> best_inv rad P b -> best_inv rad P' b.
Proof.
  intros H [[-> HP]|(s & i & -> & HP & Hb)]; [left|right].
  - split; [reflexivity|]. intros s i Hc. apply (HP s i), H, Hc.
  - exists s, i. split; [reflexivity|]. split; [apply H, HP|]. intros s' i' Hc. apply Hb, H, Hc.
Qed.
(** Candidates that are not better can be dropped. *)
Lemma best_inv_drop rad (P N : nat -> nat -> Prop) b : best_inv rad P b -> (forall s i, N s i -> fleb (cm_radius b) (Fin (rad s i)) = true) -> best_inv rad (fun s i => P s i \/ N s i) b.
Proof.
  intros [[-> HP]|(s & i & -> & HP & Hb)] HN; [left|right].
  - split; [reflexivity|]. intros s i [H|H]; [exact (HP s i H)|]. specialize (HN s i H). discriminate.
  - exists s, i. split; [reflexivity|]. split; [left; exact HP|]. intros s' i' [H|H]; [auto|]. specialize (HN s' i' H). cbn [cm_radius fleb nltb NumR] in HN.
    apply negb_true_iff, Rltb_false in HN. exact HN.
Qed.
(** A better one is taken. *)
Lemma best_inv_take rad (P : nat -> nat -> Prop) b s i : best_inv rad P b ->
  best_inv rad (fun s' i' => P s' i' \/ (s' = s /\ i' = i)) (if fltb (Fin (rad s i)) (cm_radius b) then mkCm (Fin (rad s i)) (Z.of_nat s) (Z.of_nat i) else b).
Proof.
  intros Hb. destruct (fltb (Fin (rad s i)) (cm_radius b)) eqn:E.
  - right. exists s, i. split; [reflexivity|]. split; [auto|]. intros s' i' [H|[-> ->]]; [|apply Rle_refl].
    destruct Hb as [[-> HP]|(s0 & i0 & -> & HP & Hb)]; [exfalso; exact (HP _ _ H)|]. cbn [cm_radius fltb nltb NumR] in E. apply Rltb_true in E.
    apply Rle_trans with (rad s0 i0); [lra|auto].
  - apply best_inv_drop; [exact Hb|]. intros s' i' [-> ->]. destruct Hb as [[-> HP]|(s0 & i0 & -> & HP & Hb)]; [discriminate|].
    cbn [cm_radius fltb fleb nltb NumR] in *. rewrite E. reflexivity.
Qed.

Section Collection.
  Variable m : nat.
  Variable C : list (list R).
  Hypothesis Hm : 0 < m.
  Hypothesis HC : forall S, In S C -> m <= length S.
  Notation n := (length C).
  Definition ser (s : nat) : list R := nth s C [].
  Definition cols (s : nat) : nat := length (ser s) + 1 - m.

  Lemma ser_long s : s < n -> m <= length (ser s).
  Proof. intro H. apply HC. unfold ser. apply nth_In. exact H. Qed.
  Lemma ser_error s : s < n -> nth_error C s = Some (ser s).
  Proof. intro H. unfold ser. apply nth_error_nth'. exact H. Qed.
  Lemma getitem_fin s : s < n -> getitem (map (map (@Fin R)) C) s = Ok (fin (ser s)).
  Proof. clear - C. intro H. unfold getitem. rewrite nth_error_map. unfold ser. rewrite (nth_error_nth' C []) by exact H. reflexivity. Qed.

  (** The distances of subsequence [i] of [s] to series [t], and the smallest one *)
  Definition dists (s t i : nat) : list R := map (fun r => zdef (sub m (ser t) r) (sub m (ser s) i)) (seq 0 (cols t)).
  Definition dm (s t i : nat) : R := rmin (dists s t i).

  Lemma dists_ne s t i : t < n -> dists s t i <> [].
  Proof. intro H. pose proof (ser_long H). unfold dists, cols. replace (length (ser t) + 1 - m) with (S (length (ser t) - m)) by lia. discriminate. Qed.
  Lemma dm_best s t i : t < n -> best_match m C s i t (dm s t i).
  Proof.
    intro H. pose proof (rmin_in (@dists_ne s t i H)) as HI. unfold best_match, least, has_sub. split.
    - unfold dists in HI at 2. apply in_map_iff in HI. destruct HI as (r & E & Hr%in_seq). exists r. split; [|exact E]. split; [exact H|]. unfold cols in Hr. fold (ser t). lia.
    - intros r [_ Hr]. apply rmin_le. unfold dists. apply in_map_iff. exists r. split; [reflexivity|]. apply in_seq. unfold cols. fold (ser t) in Hr. lia.
  Qed.
  Lemma best_match_dm s t i v : t < n -> best_match m C s i t v -> v = dm s t i.
  Proof. intros H Hv. eapply least_unique; [exact Hv|]. apply dm_best. exact H. Qed.

  Lemma col_dists s t i : s < n -> i + m <= length (ser s) -> col_dist (zdist 0) m (ser s) (ser t) i = fin (dists s t i).
  Proof.
    clear - Hm. intros Hs Hi. unfold col_dist, dists. rewrite map_map. apply map_ext_in. intros r Hr%in_seq. f_equal. apply zdist_def. rewrite length_sub. unfold cols in *. lia.
  Qed.

  (** The radius: the largest of these, over the other series *)
  Definition skip (s next o : nat) : bool := (o =? s) || (o =? next).
  Fixpoint worst (s next i : nat) (os : list nat) (r : R) : R :=
    match os with [] => r | o :: os => worst s next i os (if skip s next o then r else Rmax r (dm s o i)) end.
  Definition next_of (s : nat) : nat := (s + 1) mod n.
  Definition rad (s i : nat) : R := worst s (next_of s) i (seq 0 n) (dm s (next_of s) i).

  Lemma worst_spec s next i os : forall r, (r <= worst s next i os r)%R /\
    (forall o, In o os -> skip s next o = false -> (dm s o i <= worst s next i os r)%R) /\
    (worst s next i os r = r \/ exists o, In o os /\ skip s next o = false /\ worst s next i os r = dm s o i).
  Proof.
    clear. induction os as [|o os IH]; intro r; cbn [worst].
    - split; [apply Rle_refl|]. split; [intros o []|]. left. reflexivity.
    - destruct (skip s next o) eqn:E; [destruct (IH r) as (I1 & I2 & I3)|destruct (IH (Rmax r (dm s o i))) as (I1 & I2 & I3)].
      + split; [exact I1|]. split; [intros o' [<-|Ho]; [congruence|auto]|]. destruct I3 as [I3|(o' & H1 & H2)]; [left; exact I3|right; exists o'; auto using in_cons].
      + pose proof (Rmax_l r (dm s o i)). pose proof (Rmax_r r (dm s o i)). split; [lra|]. split; [intros o' [<-|Ho] Hsk; [lra|auto]|].
        destruct I3 as [I3|(o' & H1 & H2)]; [|right; exists o'; auto using in_cons]. rewrite I3. unfold Rmax. destruct (Rle_dec r (dm s o i)); [right; exists o; auto using in_eq|left; reflexivity].
  Qed.
  Lemma next_lt s : 2 <= n -> s < n -> next_of s < n /\ next_of s <> s.
  Proof.
    clear. intros Hn Hs. unfold next_of. split; [apply Nat.mod_upper_bound; lia|]. destruct (Nat.eq_dec (s + 1) n) as [E|E]; [rewrite E, Nat.mod_same by lia; lia|rewrite Nat.mod_small by lia; lia].
  Qed.
  Lemma rad_radius s i : 2 <= n -> s < n -> radius m C s i (rad s i).
  Proof.
    intros Hn Hs. destruct (next_lt Hn Hs) as [N1 N2]. exists (fun t => dm s t i). split; [intros t Ht _; apply dm_best; exact Ht|].
    destruct (worst_spec s (next_of s) i (seq 0 n) (dm s (next_of s) i)) as (W1 & W2 & W3). fold (rad s i) in *. split.
    - destruct W3 as [->|(o & Ho%in_seq & Hk & ->)]; [exists (next_of s); auto|]. exists o. unfold skip in Hk. apply orb_false_iff in Hk. destruct Hk as [Hk%Nat.eqb_neq _]. split; [|reflexivity]. lia.
    - intros t [Ht Hts]. destruct (Nat.eq_dec t (next_of s)) as [->|Htn]; [exact W1|]. apply W2; [apply in_seq; lia|]. unfold skip. apply orb_false_iff. split; apply Nat.eqb_neq; assumption.
  Qed.
  Lemma radius_rad s i v : 2 <= n -> s < n -> radius m C s i v -> v = rad s i.
  Proof.
    intros Hn Hs (d & Hd & Hg). destruct (rad_radius i Hn Hs) as (d' & Hd' & Hg'). apply (@greatest_unique (fun t => t < n /\ t <> s) d'); [|exact Hg'].
    assert (E : forall t, t < n -> t <> s -> d' t = d t) by (intros t Ht Hts; eapply least_unique; [apply Hd'; assumption|apply Hd; assumption]).
    destruct Hg as [(t & [Ht Hts] & Ev) Hg]. split; [exists t; split; [auto|]; rewrite E by assumption; exact Ev|]. intros t' [Ht' Hts']. rewrite E by assumption. apply Hg. auto.
  Qed.

  (** ** The generators *)
  Variables (mem : nat -> num R) (memb : nat -> bool).
  Definition ready (s t : nat) (g : @zn R) : Prop := exists u last, ZInv 0 m (length (ser s)) (length (ser t)) false true u (ser s) (ser t) last g.
  Lemma ready_column s t g i : s < n -> t < n -> i + m <= length (ser s) -> ready s t g ->
    exists g', zn_calc_column mem g i = Ok (g', fin (dists s t i)) /\ ready s t g'.
  Proof.
    intros Hs Ht Hi (u & last & I). assert (HQ : false = false -> m <= length (ser t)) by (intros _; apply ser_long; exact Ht).
    destruct (ZInv_col mem memb Hm HQ (c := i) I) as (g' & E & I'); [split; [exact Hi|apply ser_long; exact Ht]|auto|].
    exists g'. rewrite col_dists in E by assumption. split; [exact E|]. exists true. eexists. exact I'.
  Qed.

  Definition dict_ok (d : gendict) : Prop := forall s t, s < n -> t < n -> s <> t -> exists g, dict_get d (s, t) = Ok g /\ ready s t g.
  Lemma column_min_ok d s t i : dict_ok d -> s < n -> t < n -> s <> t -> i + m <= length (ser s) ->
    exists d', column_min mem (s, t) d i = Ok (d', Fin (dm s t i)) /\ dict_ok d'.
  Proof.
    intros Hd Hs Ht Hst Hi. destruct (Hd s t Hs Ht Hst) as (g & Eg & Rg). destruct (@ready_column s t g i Hs Ht Hi Rg) as (g' & Ec & Rg').
    unfold column_min. rewrite Eg. cbn [bind]. rewrite Ec. cbn [bind snd fst]. rewrite amin_fin by (apply dists_ne; exact Ht). cbn [bind]. eexists. split; [reflexivity|].
    intros s1 t1 Hs1 Ht1 Hst1. rewrite (@dict_get_set _ _ _ g' _ (s1, t1) Eg). destruct (same (s, t) (s1, t1)) eqn:E; [|apply Hd; assumption].
    apply same_eq in E. inversion E; subst. exists g'. auto.
  Qed.

  Lemma next_profile_ok d s t : dict_ok d -> s < n -> t < n -> s <> t -> exists d', next_profile mem (s, t) (cols s) d = Ok (d', fin (map (dm s t) (seq 0 (cols s)))) /\ dict_ok d'.
  Proof.
    intros Hd Hs Ht Hst. unfold next_profile.
    assert (L : forall k, k <= cols s -> exists d', foldM (fun st col => do r <- column_min mem (s, t) (fst st) col; Ok (fst r, snd st ++ [snd r])) (seq 0 k) (d, []) = Ok (d', fin (map (dm s t) (seq 0 k))) /\ dict_ok d').
    { induction k as [|k IH]; intro Hk; [exists d; auto|]. destruct IH as (d' & E & Hd'); [lia|]. rewrite seq_S, foldM_app, E. cbn [bind foldM].
      destruct (@column_min_ok d' s t k Hd' Hs Ht Hst) as (d2 & E2 & Hd2); [unfold cols in Hk; lia|]. cbn [Nat.add fst snd]. rewrite E2. cbn [bind fst snd]. eexists. split; [|exact Hd2].
      rewrite !map_app. reflexivity. }
    apply (L (cols s)). lia.
  Qed.

  (** ** The search *)
  Lemma pymax_fin a b : pymax (Fin a) (Fin b) = Fin (Rmax a b).
  Proof. clear. unfold pymax. cbn [fltb nltb NumR]. unfold Rmax. destruct (Rltb_spec a b); destruct (Rle_dec a b); try reflexivity; try lra. f_equal. lra. Qed.
  Lemma check_others_ok s next i best os : s < n -> i + m <= length (ser s) -> (forall o, In o os -> o < n) -> forall d r, dict_ok d ->
    exists d' r' a, check_others mem os s next i best d (Fin r) = Ok (d', (Fin r', a)) /\ dict_ok d' /\
      (a = false -> r' = worst s next i os r) /\ (a = true -> fleb best (Fin r') = true /\ (r' <= worst s next i os r)%R).
  Proof.
    intros Hs Hi. induction os as [|o os IH]; intros Ho d r Hd; cbn [check_others worst].
    - exists d, r, false. split; [reflexivity|]. split; [exact Hd|]. split; [reflexivity|discriminate].
    - fold (skip s next o). destruct (skip s next o) eqn:E.
      + apply IH; [intros; apply Ho; right; assumption|exact Hd].
      + assert (Hos : s <> o) by (unfold skip in E; apply orb_false_iff in E; destruct E as [E%Nat.eqb_neq _]; congruence).
        destruct (@column_min_ok d s o i Hd Hs (Ho o (or_introl eq_refl)) Hos Hi) as (d' & E' & Hd'). rewrite E'. cbn [bind fst snd]. rewrite pymax_fin.
        destruct (pyge (Fin (Rmax r (dm s o i))) best) eqn:Eg.
        * do 3 eexists. split; [reflexivity|]. split; [exact Hd'|]. split; [discriminate|]. intros _. split; [exact Eg|]. exact (proj1 (worst_spec s next i os _)).
        * apply IH; [intros; apply Ho; right; assumption|exact Hd'].
  Qed.

  Lemma fleb_mono (b : num R) x y : fleb b (Fin x) = true -> (x <= y)%R -> fleb b (Fin y) = true.
  Proof.
    clear. destruct b; cbn [fleb nltb NumR]; auto. intros H1 H2. apply negb_true_iff, Rltb_false in H1. apply negb_true_iff, Rltb_false. lra.
  Qed.

  Lemma try_ok s mp cands : 2 <= n -> s < n -> mp = map (dm s (next_of s)) (seq 0 (cols s)) ->
    StronglySorted (fun i j => (nth i mp 0 <= nth j mp 0)%R) cands -> (forall i, In i cands -> i < cols s) ->
    forall d b (P : nat -> nat -> Prop), dict_ok d -> best_inv rad P b ->
    exists d' b', try_candidates mem cands n s (next_of s) (fin mp) d b = Ok (d', b') /\ dict_ok d' /\ best_inv rad (fun s' i' => P s' i' \/ (s' = s /\ In i' cands)) b'.
  Proof.
    intros Hn Hs Emp HS Hc. assert (Enth : forall i, i < cols s -> nth i mp 0%R = dm s (next_of s) i).
    { intros i Hi. rewrite Emp, (nth_indep _ 0%R (dm s (next_of s) 0)) by (rewrite map_length, seq_length; exact Hi). rewrite map_nth, seq_nth by exact Hi. reflexivity. }
    induction HS as [|i cands HS IH HF]; intros d b P Hd Hb; cbn [try_candidates].
    - exists d, b. split; [reflexivity|]. split; [exact Hd|]. eapply best_inv_ext; [|exact Hb]. cbn [In]. tauto.
    - assert (Hi : i < cols s) by (apply Hc; left; reflexivity).
      assert (Eg : getitem (fin mp) i = Ok (Fin (dm s (next_of s) i))).
      { unfold getitem. rewrite Emp, map_map, nth_error_map, nth_error_seq. destruct (Nat.ltb_spec i (cols s)); [reflexivity|lia]. }
      rewrite Eg. cbn [bind].
      assert (Hrad : forall j, (dm s (next_of s) j <= rad s j)%R) by (intro j; unfold rad; exact (proj1 (worst_spec s (next_of s) j (seq 0 n) _))).
      destruct (pyge (Fin (dm s (next_of s) i)) (cm_radius b)) eqn:Ep.
      + exists d, b. split; [reflexivity|]. split; [exact Hd|].
        apply (@best_inv_drop rad P (fun s' i' => s' = s /\ In i' (i :: cands))); [exact Hb|]. intros s' i' [-> Hin]. apply (fleb_mono _ Ep). apply Rle_trans with (dm s (next_of s) i'); [|apply Hrad].
        destruct Hin as [<-|Hin]; [apply Rle_refl|]. rewrite <- !Enth by (exact Hi || (apply Hc; right; exact Hin)). rewrite Forall_forall in HF. apply HF. exact Hin.
      + destruct (@check_others_ok s (next_of s) i (cm_radius b) (seq 0 n) Hs) with (d := d) (r := dm s (next_of s) i) as (d' & r' & a & E & Hd' & H1 & H2); auto; [unfold cols in Hi; lia|intros o Ho%in_seq; lia|].
        rewrite E. cbn [bind fst snd]. fold (rad s i) in *.
        assert (Hb' : best_inv rad (fun s' i' => P s' i' \/ (s' = s /\ i' = i)) (if negb a && fltb (Fin r') (cm_radius b) then mkCm (Fin r') (Z.of_nat s) (Z.of_nat i) else b)).
        { destruct a; cbn [negb andb].
          - destruct (H2 eq_refl) as [H3 H4]. apply best_inv_drop; [exact Hb|]. intros s' i' [-> ->]. apply (fleb_mono _ H3 H4).
          - rewrite (H1 eq_refl). fold (rad s i). apply best_inv_take. exact Hb. }
        destruct (IH (fun j Hj => Hc j (or_intror Hj)) d' _ _ Hd' Hb') as (d2 & b2 & E2 & Hd2 & Hb2). exists d2, b2. split; [exact E2|]. split; [exact Hd2|].
        eapply best_inv_ext; [|exact Hb2]. intros s' i'. cbn [In]. intuition congruence.
  Qed.

  Variable argsort : list (num R) -> list nat.
  Hypothesis Hsort : argsorts argsort.
  Definition before (k s i : nat) : Prop := s < k /\ s < n /\ i < cols s.

  Lemma search_ok k d b : 2 <= n -> k < n -> dict_ok d -> best_inv rad (before k) b ->
    exists d' b', search_series mem argsort (map (map (@Fin R)) C) (Z.of_nat m) (d, b) k = Ok (d', b') /\ dict_ok d' /\ best_inv rad (before (Datatypes.S k)) b'.
  Proof.
    intros Hn Hk Hd Hb. unfold search_series. rewrite map_length, getitem_fin by exact Hk. cbn [bind fst snd]. fold (next_of k).
    rewrite map_length. replace (Z.to_nat (Z.of_nat (length (ser k)) - Z.of_nat m + 1)) with (cols k) by (unfold cols; pose proof (ser_long Hk); lia).
    destruct (next_lt Hn Hk) as [N1 N2]. destruct (@next_profile_ok d k (next_of k) Hd Hk N1 (not_eq_sym N2)) as (d1 & E1 & Hd1). rewrite E1. cbn [bind fst snd].
    set (mp := map (dm k (next_of k)) (seq 0 (cols k))). destruct (Hsort mp) as [HP HS].
    assert (Lmp : length mp = cols k) by (unfold mp; rewrite map_length, seq_length; reflexivity). rewrite Lmp in HP.
    destruct (@try_ok k mp (argsort (fin mp)) Hn Hk eq_refl HS) with (d := d1) (b := b) (P := before k) as (d2 & b2 & E2 & Hd2 & Hb2); auto.
    { intros i Hi. apply (Permutation_in _ HP) in Hi. apply in_seq in Hi. lia. }
    exists d2, b2. split; [exact E2|]. split; [exact Hd2|]. eapply best_inv_ext; [|exact Hb2]. intros s i. unfold before. cbn beta. split.
    - intros [(H1 & H2 & H3)|[-> Hi]]; [lia|]. apply (Permutation_in _ HP) in Hi. apply in_seq in Hi. lia.
    - intros (H1 & H2 & H3). destruct (Nat.eq_dec s k) as [->|Hne]; [right; split; [reflexivity|]; apply (Permutation_in _ (Permutation_sym HP)), in_seq; lia|left; lia].
  Qed.
  Lemma search_all d : 2 <= n -> dict_ok d -> exists d' b, foldM (search_series mem argsort (map (map (@Fin R)) C) (Z.of_nat m)) (seq 0 n) (d, cm_start) = Ok (d', b) /\ best_inv rad (before n) b.
  Proof.
    intros Hn Hd.
    assert (L : forall k, k <= n -> exists d' b, foldM (search_series mem argsort (map (map (@Fin R)) C) (Z.of_nat m)) (seq 0 k) (d, cm_start) = Ok (d', b) /\ dict_ok d' /\ best_inv rad (before k) b).
    { induction k as [|k IH]; intro Hk.
      - exists d, cm_start. split; [reflexivity|]. split; [exact Hd|]. left. split; [reflexivity|]. unfold before. lia.
      - destruct IH as (d1 & b1 & E1 & Hd1 & Hb1); [lia|]. rewrite seq_S, foldM_app, E1. cbn [bind foldM Nat.add].
        destruct (@search_ok k d1 b1 Hn Hk Hd1 Hb1) as (d2 & b2 & E2 & H2). rewrite E2. cbn [bind]. eauto. }
    destruct (L n (Nat.le_refl n)) as (d' & b & E & _ & Hb). eauto.
  Qed.
  Lemma best_consensus b : 2 <= n -> best_inv rad (before n) b -> exists s i, b = mkCm (Fin (rad s i)) (Z.of_nat s) (Z.of_nat i) /\ consensus m C (radius m C) s i (rad s i).
  Proof.
    intros Hn [[-> H]|(s & i & -> & (H1 & H2 & H3) & Hb)].
    - exfalso. apply (H 0 0). unfold before, cols. assert (H0 : 0 < n) by lia. pose proof (ser_long H0). lia.
    - exists s, i. split; [reflexivity|]. unfold cols in H3. pose proof (ser_long H2) as HL. split; [|split].
      + split; [exact H2|]. fold (ser s). lia.
      + apply rad_radius; assumption.
      + intros s' i' v' [Hs' Hi'] Hv. rewrite (@radius_rad s' i' v' Hn Hs' Hv). apply Hb. unfold before, cols. fold (ser s') in Hi'. lia.
  Qed.

  (** ** The generators that are made *)
  Lemma stats_ok l : m <= length l -> exists z, series_stats mem memb (Z.of_nat m) (fin l) = Ok z /\ zs_inv m (length l) l z.
  Proof.
    clear - Hm. intro Hl. unfold series_stats. destruct (sliding_fin l Hm Hl) as [Es _]. rewrite Es. cbn [bind fst snd]. rewrite uneven_map.
    assert (Lw : forall U (st : list R -> U), length (windowed st m l) = length l + 1 - m) by (intros; unfold windowed; rewrite map_length, seq_length; reflexivity).
    destruct (@win_data _ mem (fin (windowed mean m l)) 1) as (b1 & E1 & W1); [discriminate|discriminate|rewrite map_length, Lw; lia|].
    destruct (@win_data _ mem (fin (windowed std m l)) 1) as (b2 & E2 & W2); [discriminate|discriminate|rewrite map_length, Lw; lia|].
    destruct (@win_data _ memb (windowed uneven m l) 1) as (b3 & E3 & W3); [discriminate|discriminate|rewrite Lw; lia|].
    change (rb_new mem (Some (fin (windowed mean m l))) None false 1) with (rb_new mem (Some (fin (windowed mean m l))) None true 1). rewrite E1. cbn [bind].
    change (rb_new mem (Some (fin (windowed std m l))) None false 1) with (rb_new mem (Some (fin (windowed std m l))) None true 1). rewrite E2. cbn [bind].
    change (rb_new memb (Some (windowed uneven m l)) None false 1) with (rb_new memb (Some (windowed uneven m l)) None true 1). rewrite E3. cbn [bind].
    eexists. split; [reflexivity|]. rewrite !map_length, !Lw in *. unfold zs_inv. cbn [zs_mu zs_std zs_nz]. auto.
  Qed.
  Lemma pair_ok s t z1 z2 : s < n -> t < n -> zs_inv m (length (ser s)) (ser s) z1 -> zs_inv m (length (ser t)) (ser t) z2 ->
    exists g, pair_generator mem (Z.of_nat m) (fin (ser s)) (fin (ser t)) z1 z2 = Ok g /\ ready s t g.
  Proof.
    intros Hs Ht H1 H2. pose proof (ser_long Hs) as Ls. pose proof (ser_long Ht) as Lt. unfold pair_generator.
    destruct (@win_data _ mem (fin (ser s)) 1) as (b1 & E1 & W1); [discriminate|discriminate|rewrite map_length; lia|].
    destruct (@win_data _ mem (fin (ser t)) 1) as (b2 & E2 & W2); [discriminate|discriminate|rewrite map_length; lia|].
    change (rb_new mem (Some (fin (ser s))) None false 1) with (rb_new mem (Some (fin (ser s))) None true 1). rewrite E1. cbn [bind].
    change (rb_new mem (Some (fin (ser t))) None false 1) with (rb_new mem (Some (fin (ser t))) None true 1). rewrite E2. cbn [bind].
    rewrite !map_length in *. rewrite Nat2Z.id. eexists. split; [reflexivity|]. exists false, (-1)%Z. constructor; cbn [zn_c zn_noise zn_s zn_q]; auto.
    apply cinv_data; auto.
  Qed.
  Lemma mapM_all {S T} (f : S -> res T) (Q : S -> T -> Prop) l : (forall x, In x l -> exists y, f x = Ok y /\ Q x y) -> exists ys, mapM f l = Ok ys /\ Forall2 Q l ys.
  Proof.
    clear. induction l as [|x l IH]; intro H; [exists []; split; [reflexivity|constructor]|]. destruct (H x (or_introl eq_refl)) as (y & Ey & Qy). destruct IH as (ys & Eys & Qys); [intros; apply H; right; assumption|].
    exists (y :: ys). cbn [mapM]. rewrite Ey. cbn [bind]. rewrite Eys. split; [reflexivity|]. constructor; assumption.
  Qed.
  Lemma Forall2_nth_error {S T} (Q : S -> T -> Prop) l ys k x : Forall2 Q l ys -> nth_error l k = Some x -> exists y, nth_error ys k = Some y /\ Q x y.
  Proof. clear. intro H. revert k. induction H as [|a b l ys H1 H2 IH]; intros [|k] E; cbn [nth_error] in *; try discriminate; [inversion E; subst; eauto|auto]. Qed.

  Lemma all_stats : exists zs, mapM (series_stats mem memb (Z.of_nat m)) (map (map (@Fin R)) C) = Ok zs /\
    forall s, s < n -> exists z, nth_error zs s = Some z /\ zs_inv m (length (ser s)) (ser s) z.
  Proof.
    destruct (@mapM_all _ _ (series_stats mem memb (Z.of_nat m)) (fun x z => exists l, x = fin l /\ zs_inv m (length l) l z) (map (map (@Fin R)) C)) as (zs & E & F).
    - intros x Hx. apply in_map_iff in Hx. destruct Hx as (l & <- & Hl). destruct (@stats_ok l (HC _ Hl)) as (z & Ez & Iz). exists z. split; [exact Ez|]. exists l. auto.
    - exists zs. split; [exact E|]. intros s Hs. destruct (@Forall2_nth_error _ _ _ _ _ s (fin (ser s)) F) as (z & Ez & l & El & Iz); [rewrite nth_error_map, ser_error by exact Hs; reflexivity|].
      exists z. split; [exact Ez|]. assert (El' : ser s = l); [|rewrite El'; exact Iz]. clear - El. revert l El. induction (ser s) as [|x l' IH]; intros [|y l] E; cbn [map] in E; try discriminate; [reflexivity|]. inversion E. f_equal. apply IH. assumption.
  Qed.
  Lemma generators_ok zs : (forall s, s < n -> exists z, nth_error zs s = Some z /\ zs_inv m (length (ser s)) (ser s) z) ->
    exists d, make_generators mem (Z.of_nat m) (map (map (@Fin R)) C) zs = Ok d /\ dict_ok d.
  Proof.
    intro Hz. unfold make_generators. rewrite map_length.
    match goal with |- context [foldM ?f0 _ _] => set (f := f0) end.
    assert (L : forall l, (forall i j, In (i, j) l -> i < n /\ j < n) -> forall d, (forall k g, dict_get d k = Ok g -> ready (fst k) (snd k) g) ->
      exists d', foldM f l d = Ok d' /\ (forall k g, dict_get d' k = Ok g -> ready (fst k) (snd k) g) /\
        forall k, (exists g, dict_get d k = Ok g) \/ (In k l /\ fst k <> snd k) -> exists g, dict_get d' k = Ok g).
    { induction l as [|[i j] l IH]; intros Hl d Hd.
      - exists d. split; [reflexivity|]. split; [exact Hd|]. intros k [H|[[] _]]. exact H.
      - destruct (Hl i j (or_introl eq_refl)) as [Hi Hj]. cbn [foldM].
        assert (St : exists d1, f d (i, j) = Ok d1 /\ (forall k g, dict_get d1 k = Ok g -> ready (fst k) (snd k) g) /\ (forall k, (exists g, dict_get d k = Ok g) -> exists g, dict_get d1 k = Ok g) /\ (i <> j -> exists g, dict_get d1 (i, j) = Ok g)).
        { unfold f. destruct (Nat.eqb_spec i j) as [->|Hij]; [exists d; split; [reflexivity|]; split; [exact Hd|]; split; [auto|congruence]|].
          rewrite !getitem_fin by assumption. cbn [bind]. destruct (Hz i Hi) as (z1 & E1 & I1). destruct (Hz j Hj) as (z2 & E2 & I2).
          unfold getitem. rewrite E1, E2. cbn [bind]. destruct (pair_ok Hi Hj I1 I2) as (g & Eg & Rg). rewrite Eg. cbn [bind]. eexists. split; [reflexivity|]. split; [|split].
          - intros k g' E. rewrite dict_get_snoc in E. destruct (dict_get d k) as [g0|] eqn:E0; [inversion E; subst; apply Hd; exact E0|]. destruct (same (i, j) k) eqn:Es; [|discriminate].
            apply same_eq in Es. subst k. inversion E; subst. exact Rg.
          - intros k (g' & E). rewrite dict_get_snoc, E. eauto.
          - intros _. rewrite dict_get_snoc, same_refl. destruct (dict_get d (i, j)); eauto. }
        destruct St as (d1 & Ed1 & Hd1 & Hk1 & Hij). rewrite Ed1. cbn [bind]. destruct (IH (fun i' j' H => Hl i' j' (or_intror H)) d1 Hd1) as (d' & E' & Hd' & Hk'). exists d'. split; [exact E'|]. split; [exact Hd'|].
        intros k Hk. apply Hk'. destruct Hk as [Hk|[[<-|Hk] Hne]]; [left; auto| left; apply Hij; exact Hne|right; auto]. }
    destruct (L (list_prod (seq 0 n) (seq 0 n))) with (d := @nil ((nat * nat) * @zn R)) as (d & E & Hd & Hk).
    - intros i j Hij. apply in_prod_iff in Hij. rewrite !in_seq in Hij. lia.
    - intros k g Hk. discriminate.
    - exists d. split; [exact E|]. intros s t Hs Ht Hst. destruct (Hk (s, t)) as (g & Eg); [right; split; [apply in_prod_iff; rewrite !in_seq; lia|exact Hst]|]. exists g. split; [exact Eg|]. apply (Hd _ _ Eg).
  Qed.

  Lemma lengths_ok : check_lengths (map (map (@Fin R)) C) (Z.of_nat m) = Ok tt.
  Proof.
    clear - HC. unfold check_lengths. destruct (existsb _ _) eqn:E; [|reflexivity]. apply existsb_exists in E. destruct E as (x & Hx & Hlt). apply in_map_iff in Hx. destruct Hx as (l & <- & Hl).
    rewrite map_length in Hlt. apply Z.ltb_lt in Hlt. specialize (HC _ Hl). lia.
  Qed.

  Lemma find_ok : 2 <= n -> 3 <= m -> exists s i, find_consensus_motif mem memb argsort (map (map (@Fin R)) C) (Z.of_nat m) = Ok (mkCm (Fin (rad s i)) (Z.of_nat s) (Z.of_nat i)) /\
    consensus m C (radius m C) s i (rad s i).
  Proof.
    intros Hn Hm3. unfold find_consensus_motif. rewrite map_length. destruct (Nat.ltb_spec n 2); [lia|]. destruct (Z.ltb_spec (Z.of_nat m) 3); [lia|].
    rewrite lengths_ok. cbn [bind]. destruct all_stats as (zs & E1 & Hz). rewrite E1. cbn [bind]. destruct (generators_ok zs Hz) as (d & E2 & Hd). rewrite E2. cbn [bind].
    destruct (search_all Hn Hd) as (d' & b & E3 & Hb). rewrite E3. cbn [bind snd]. destruct (best_consensus Hn Hb) as (s & i & -> & HCo). exists s, i. auto.
  Qed.
End Collection.

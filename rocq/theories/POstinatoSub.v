(** * POstinatoSub: find_consensus_motif_subset on finite data *)
From Coq Require Import QArith Reals Lra Sorted Permutation.
From Verif Require Import Np NpFacts MRing PRing MUtil MArith MStats MCache MZnorm MMulti MProfile MCalc MOstinato SLog SReal SCalc SMixed SEnd SGen SOstinato PArith PStats PCache PGenRun PZdist PZgeo PZnorm PropEnd POstinato.
Set Implicit Arguments.
Open Scope nat_scope.

(** ** Sorting real numbers *)
Fixpoint rinsert (x : R) (l : list R) : list R := match l with [] => [x] | y :: l' => if Rltb y x then y :: rinsert x l' else x :: l end.
Fixpoint rsort (l : list R) : list R := match l with [] => [] | x :: l => rinsert x (rsort l) end.
Lemma insert_fin x l : insert (Fin x) (fin l) = fin (rinsert x l).
Proof. induction l as [|y l IH]; [reflexivity|]. cbn [map insert rinsert sort_le isnan fleb fltb nltb NumR]. destruct (Rltb y x); cbn [negb map]; [rewrite IH|]; reflexivity. Qed.
Lemma fsort_fin l : fsort (fin l) = fin (rsort l).
Proof. induction l as [|y l IH]; [reflexivity|]. cbn [map fsort rsort]. rewrite IH. apply insert_fin. Qed.
Lemma rinsert_perm x l : Permutation (rinsert x l) (x :: l).
Proof. induction l as [|y l IH]; [reflexivity|]. cbn [rinsert]. destruct (Rltb y x); [|reflexivity]. rewrite IH. apply perm_swap. Qed.
Lemma rsort_perm l : Permutation (rsort l) l.
Proof. induction l as [|y l IH]; [reflexivity|]. cbn [rsort]. rewrite rinsert_perm, IH. reflexivity. Qed.
Lemma rsort_length l : length (rsort l) = length l.
Proof. apply Permutation_length, rsort_perm. Qed.
Lemma rinsert_sorted x l : StronglySorted Rle l -> StronglySorted Rle (rinsert x l).
Proof.
  induction 1 as [|y l HS IH HF]; cbn [rinsert]; [repeat constructor|]. destruct (Rltb_spec y x) as [H|H].
  - constructor; [exact IH|]. apply Forall_forall. intros z Hz. apply (Permutation_in _ (rinsert_perm x l)) in Hz. destruct Hz as [<-|Hz]; [lra|]. rewrite Forall_forall in HF. auto.
  - constructor; [constructor; assumption|]. constructor; [lra|]. rewrite Forall_forall in *. intros z Hz. specialize (HF z Hz). lra.
Qed.
Lemma rsort_sorted l : StronglySorted Rle (rsort l).
Proof. induction l as [|y l IH]; [constructor|]. apply rinsert_sorted, IH. Qed.
Lemma sorted_unique l : StronglySorted Rle l -> forall l', StronglySorted Rle l' -> Permutation l l' -> l = l'.
Proof.
  induction 1 as [|x l HS IH HF]; intros l' HS' HP; [apply Permutation_nil in HP; congruence|].
  destruct HS' as [|y l' HS' HF']; [apply Permutation_sym, Permutation_nil in HP; discriminate|].
  assert (E : x = y).
  { rewrite Forall_forall in HF, HF'. apply Rle_antisym.
    - pose proof (Permutation_in y (Permutation_sym HP) (or_introl eq_refl)) as [->|H]; [apply Rle_refl|auto].
    - pose proof (Permutation_in x HP (or_introl eq_refl)) as [->|H]; [apply Rle_refl|auto]. }
  subst y. f_equal. apply IH; [exact HS'|]. eapply Permutation_cons_inv. exact HP.
Qed.
Lemma rmin_perm l l' : Permutation l l' -> rmin l = rmin l'.
Proof.
  intro HP. destruct (list_eq_dec Req_EM_T l []) as [->|H]; [apply Permutation_nil in HP; subst; reflexivity|].
  assert (H' : l' <> []) by (intros ->; apply Permutation_sym, Permutation_nil in HP; congruence). apply Rle_antisym.
  - apply rmin_le. apply (Permutation_in _ (Permutation_sym HP)), rmin_in. exact H'.
  - apply rmin_le. apply (Permutation_in _ HP), rmin_in. exact H.
Qed.
Lemma rmin_sorted x l : StronglySorted Rle (x :: l) -> rmin (x :: l) = x.
Proof.
  intro H. inversion H as [|? ? _ HF]; subst. rewrite Forall_forall in HF. apply Rle_antisym; [apply rmin_le; left; reflexivity|].
  destruct (@rmin_in (x :: l) ltac:(discriminate)) as [E|E]; [rewrite <- E; apply Rle_refl|apply HF, E].
Qed.

(** ** The loop over the remaining series *)
(** One round: the smallest is replaced by its maximum with [d] *)
Definition raise (d : R) (l : list R) : list R := match rsort l with [] => [] | x :: l => Rmax x d :: l end.
Fixpoint rounds (count : nat) (d : R) (l : list R) : list R := match count with 0 => l | S count => rounds count d (raise d l) end.
Lemma raise_ne d l : l <> [] -> raise d l <> [].
Proof. unfold raise. intro H. destruct (rsort l) eqn:E; [|discriminate]. pose proof (rsort_length l) as L. rewrite E in L. destruct l; [congruence|discriminate]. Qed.
Lemma raise_min d l : l <> [] -> (rmin l <= rmin (raise d l))%R.
Proof.
  intro H. rewrite <- (rmin_perm (rsort_perm l)). pose proof (rsort_sorted l) as HS. pose proof (raise_ne d H) as HN. unfold raise in *. destruct (rsort l) as [|x l'] eqn:E; [congruence|].
  rewrite (rmin_sorted HS). inversion HS as [|? ? _ HF]; subst. rewrite Forall_forall in HF. destruct (rmin_in HN) as [<-|Hi]; [apply Rmax_l|apply HF, Hi].
Qed.
Lemma rounds_ne count d : forall l, l <> [] -> rounds count d l <> [].
Proof. induction count as [|count IH]; intros l H; [exact H|]. cbn [rounds]. apply IH, raise_ne, H. Qed.
Lemma rounds_min count d : forall l, l <> [] -> (rmin l <= rmin (rounds count d l))%R.
Proof. induction count as [|count IH]; intros l H; [apply Rle_refl|]. cbn [rounds]. apply Rle_trans with (rmin (raise d l)); [apply raise_min, H|apply IH, raise_ne, H]. Qed.

Lemma mapM_app {S T} (f : S -> res T) l1 l2 : mapM f (l1 ++ l2) = do a <- mapM f l1; do b <- mapM f l2; Ok (a ++ b).
Proof. induction l1 as [|x l1 IH]; cbn [app mapM bind]; [destruct (mapM f l2); reflexivity|]. destruct (f x); cbn [bind]; [|reflexivity]. rewrite IH. destruct (mapM f l1); cbn [bind]; [|reflexivity]. destruct (mapM f l2); reflexivity. Qed.

Section Collection.
  Variable m : nat.
  Variable C : list (list R).
  Hypothesis Hm : 0 < m.
  Hypothesis HC : forall S, In S C -> m <= length S.
  Notation n := (length C).
  Notation ser := (ser C).
  Notation cols := (cols m C).
  Notation dm := (dm m C).
  Notation dists := (dists m C).
  Variables (mem : nat -> num R) (memb : nat -> bool).
  Variable argsort : list (num R) -> list nat.
  Hypothesis Hsort : argsorts argsort.
  Variables (set_order : list nat -> list nat) (shuffle : list Z -> list Z).
  Hypothesis HSO : orders_sets set_order.
  Hypothesis HSH : forall l, Permutation (shuffle l) l.

  (** ** The streaming generators *)
  Definition sready (t : nat) (g : @zn R) : Prop := exists u last S0, (u = false \/ length S0 = m) /\ length S0 <= m /\ ZInv 0 m m (length (ser t)) false true u S0 (ser t) last g.
  Lemma sready_new t : t < n -> exists g, stream_generator mem memb (Z.of_nat m) (fin (ser t)) = Ok g /\ sready t g.
  Proof.
    intro Ht. pose proof (ser_long C HC Ht) as Lt. unfold stream_generator. rewrite Nat2Z.id, map_length. change (fzero : num R) with (Fin 0%R).
    assert (HQ : false = false -> m <= length (ser t)) by auto.
    destruct (@zn_streaming_state mem memb 0 m m (length (ser t)) false Hm HQ 2 (Rle_refl 0)) as (g0 & E0 & I0); [discriminate|discriminate|lia|].
    unfold state_after in I0. cbn in I0. cbn [fzero] in E0. rewrite E0. cbn [bind].
    destruct (ZInv_q mem memb Hm HQ eq_refl (ser t) I0) as (g1 & E1 & I1). exists g1. split; [exact E1|].
    exists false. eexists. exists []. split; [left; reflexivity|]. split; [cbn; lia|]. replace (ser t) with (lastn (length (ser t)) ([] ++ ser t)) at 2 by (apply lastn_all; cbn [app]; lia). exact I1.
  Qed.
  Lemma sready_step s t i g : s < n -> t < n -> i + m <= length (ser s) -> sready t g ->
    exists g1 g2, zn_append_series g (fin (sub m (ser s) i)) = Ok g1 /\ zn_calc_column mem g1 0 = Ok (g2, fin (dists s t i)) /\ sready t g2.
  Proof.
    intros Hs Ht Hi (u & last & S0 & Hu & HS0 & I0). pose proof (ser_long C HC Ht) as Lt. assert (HQ : false = false -> m <= length (ser t)) by auto.
    assert (Lx : length (sub m (ser s) i) = m) by (rewrite length_sub; lia).
    destruct (ZInv_s mem memb Hm HQ (sub m (ser s) i) I0) as (g1 & E1 & I1). exists g1.
    assert (Ex : (true && (false || negb u || counted m S0 (sub m (ser s) i)))%bool = true).
    { cbn [andb orb]. destruct Hu as [->|Hu]; [reflexivity|]. unfold counted. rewrite Hu, Nat.eqb_refl. apply orb_true_r. }
    rewrite Ex in I1. replace (lastn m (S0 ++ sub m (ser s) i)) with (sub m (ser s) i) in I1.
    2:{ unfold lastn. rewrite app_length, Lx, skipn_app. replace (length S0 + m - m) with (length S0) by lia. rewrite skipn_all, Nat.sub_diag. reflexivity. }
    destruct (ZInv_col mem memb Hm HQ (c := 0) I1) as (g2 & E2 & I2); [split; lia|left; reflexivity|]. exists g2. split; [exact E1|].
    assert (Ec : col_dist (zdist 0) m (sub m (ser s) i) (ser t) 0 = fin (dists s t i)).
    { rewrite <- (@col_dists m C Hm s t i Hs Hi). unfold col_dist. apply map_ext. intro r. do 2 f_equal. unfold sub at 1. cbn [skipn]. apply firstn_all2. lia. }
    rewrite Ec in E2. split; [exact E2|]. exists true. eexists. exists (sub m (ser s) i). split; [right; exact Lx|]. split; [lia|exact I2].
  Qed.

  Definition gens_fine (gens : list (@zn R)) : Prop := length gens = n /\ forall t g, nth_error gens t = Some g -> sready t g.
  Lemma gens_new : exists gens, mapM (stream_generator mem memb (Z.of_nat m)) (map (map (@Fin R)) C) = Ok gens /\ gens_fine gens.
  Proof.
    assert (L : forall k, k <= n -> exists gens, mapM (stream_generator mem memb (Z.of_nat m)) (map (fun t => fin (ser t)) (seq 0 k)) = Ok gens /\ length gens = k /\ forall t g, nth_error gens t = Some g -> sready t g).
    { induction k as [|k IH]; intro Hk; [exists []; split; [reflexivity|]; split; [reflexivity|]; intros [|t] g; discriminate|]. destruct IH as (gens & E & L & HG); [lia|].
      destruct (sready_new Hk) as (g & Eg & Rg). exists (gens ++ [g]). rewrite seq_S, map_app, mapM_app, E. cbn [map mapM bind Nat.add]. rewrite Eg. cbn [bind]. split; [reflexivity|]. split; [rewrite app_length, L; cbn; lia|].
      intros t g' Ht. destruct (Nat.lt_ge_cases t k) as [H|H]; [rewrite nth_error_app1 in Ht by lia; apply HG, Ht|]. rewrite nth_error_app2, L in Ht by lia.
      destruct (t - k) as [|j] eqn:Ej; [|destruct j; discriminate]. injection Ht as <-. replace t with k by lia. exact Rg. }
    destruct (L n (Nat.le_refl n)) as (gens & E & L1 & HG). exists gens. split; [|split; assumption]. rewrite <- E. f_equal. rewrite <- (map_map ser (map (@Fin R))). f_equal.
    unfold POstinato.ser. clear. induction C as [|x l IH]; [reflexivity|]. cbn [length seq map nth]. f_equal. rewrite <- seq_shift, map_map. exact IH.
  Qed.

  (** ** The search *)
  Lemma check_rest_ok count s other i best : s < n -> other < n -> i + m <= length (ser s) -> forall gens l, l <> [] -> gens_fine gens ->
    exists gens' l' a, check_rest mem count (Z.of_nat m) other (fin (ser s)) i best gens (fin l) = Ok (gens', (fin l', a)) /\ gens_fine gens' /\
      (a = false -> l' = rounds count (dm s other i) l) /\ (a = true -> fleb best (Fin (rmin (rounds count (dm s other i) l))) = true).
  Proof.
    intros Hs Ho Hi. induction count as [|count IH]; intros gens l Hl HG; cbn [check_rest rounds].
    - exists gens, l, false. split; [reflexivity|]. split; [exact HG|]. split; [reflexivity|discriminate].
    - rewrite fsort_fin. pose proof (raise_min (dm s other i) Hl) as Hmin. pose proof (rounds_min count (dm s other i) (raise_ne (dm s other i) Hl)) as Hmin2.
      pose proof (raise_ne (dm s other i) Hl) as HN. pose proof (rsort_sorted l) as HS.
      rewrite <- (rmin_perm (rsort_perm l)) in Hmin. unfold raise in *. destruct (rsort l) as [|x l'] eqn:E; [congruence|]. rewrite (rmin_sorted HS) in Hmin. cbn [map getitem nth_error bind].
      destruct (pyge (Fin x) best) eqn:Ep.
      + exists gens, (x :: l'), true. split; [reflexivity|]. split; [exact HG|]. split; [discriminate|]. intros _. apply (fleb_mono _ Ep). eapply Rle_trans; [exact Hmin|exact Hmin2].
      + destruct HG as [LG HG]. destruct (nth_error gens other) as [g|] eqn:Eg; [|apply nth_error_None in Eg; lia]. unfold getitem at 1. rewrite Eg. cbn [bind].
        rewrite Nat2Z.id, lslice_sub, sub_map. destruct (@sready_step s other i g Hs Ho Hi (HG _ _ Eg)) as (g1 & g2 & E1 & E2 & R2). rewrite E1. cbn [bind]. rewrite E2. cbn [bind snd fst].
        rewrite amin_fin by (apply dists_ne; assumption). cbn [bind]. unfold setitem at 1. destruct (Nat.ltb_spec other (length gens)); [|lia]. cbn [bind].
        unfold setitem. cbn [length]. destruct (Nat.ltb_spec 0 (Datatypes.S (length (fin l')))); [|lia]. cbn [bind]. rewrite pymax_fin. change (splice (Fin x :: fin l') 0 [Fin (Rmax x (rmin (dists s other i)))]) with (fin (Rmax x (dm s other i) :: l')).
        apply IH; [exact HN|]. split; [rewrite length_set1; lia|]. intros t g' Ht. rewrite nth_error_set1 in Ht by lia. destruct (Nat.eqb_spec t other) as [->|Hne]; [injection Ht as <-; exact R2|apply HG; exact Ht].
  Qed.

  (** What is compared: with [nig] ignored series *)
  Definition first_radii (nig s i : nat) : list R := map (fun j => dm s ((s + 1 + j) mod n) i) (seq 0 (nig + 1)).
  Definition code_rad (nig s i : nat) : R := rmin (rounds (n - nig - 2) (dm s ((s + nig + 2) mod n) i) (first_radii nig s i)).

  (** The profiles *)
  Lemma mp_ok s t : s < n -> t < n -> calculate_mp mem memb set_order shuffle never (Z.of_nat m) (fin (ser s)) (fin (ser t)) = Ok (fin (map (dm s t) (seq 0 (cols s)))).
  Proof.
    intros Hs Ht. pose proof (ser_long C HC Hs) as Ls. pose proof (ser_long C HC Ht) as Lt.
    destruct (@C58_complete set_order shuffle mem memb 2 m (length (ser s)) (length (ser t)) [ser s] (Some [ser t]) None 0 (ser s) (ser t) [ACols never None (RFloat (Fin 1%Q))]) as (mp & idx & E & L1 & L2 & HV); auto.
    - discriminate.
    - repeat split; auto; try lia.
      + intros r [<-|[]]. reflexivity.
      + intros r [<-|[]]. reflexivity.
      + cbn [buffer_used]. lia.
      + cbn [buffer_used]. lia.
    - split; reflexivity.
    - constructor; [|constructor]. split; [exact I|]. cbn. split; discriminate.
    - right. exists []. split; [reflexivity|constructor].
    - assert (Emp : mp = fin (map (dm s t) (seq 0 (cols s)))).
      { apply nth_error_ext. intro j. rewrite !nth_error_map, nth_error_seq. fold (cols s) in L1. destruct (Nat.ltb_spec j (cols s)) as [Hj|Hj].
        - destruct (HV j) as (v & i & Ev & _ & HS); [unfold cols in Hj; unfold POstinato.cols in Hj; lia|]. rewrite Ev. cbn [option_map Nat.add]. f_equal.
          destruct HS as [[-> HA]|(_ & r & [Hr _] & _ & -> & HA)].
          + exfalso. specialize (HA 0). cbn [fltb] in HA. assert (Ho : outside (buffer_used (Some [ser t]) (Z.of_nat m) None) (length (ser t) + 1 - m) j 0) by (split; [lia|cbn [buffer_used]; lia]). discriminate (HA Ho).
          + f_equal. apply Rle_antisym.
            * pose proof (@rmin_in (dists s t j) (@dists_ne m C Hm HC s t j Ht)) as Hin. unfold POstinato.dists in Hin at 2. apply in_map_iff in Hin. destruct Hin as (r' & Er & Hr'%in_seq). unfold POstinato.dm. rewrite <- Er.
              assert (Ho : outside (buffer_used (Some [ser t]) (Z.of_nat m) None) (length (ser t) + 1 - m) j r') by (split; [unfold POstinato.cols in Hr'; lia|cbn [buffer_used]; lia]).
              specialize (HA r' Ho). cbn [fltb nltb NumR] in HA. apply Rltb_false in HA. exact HA.
            * apply rmin_le. apply in_map_iff. exists r. split; [reflexivity|]. apply in_seq. unfold POstinato.cols. lia.
        - apply nth_error_None. unfold POstinato.cols in *. lia. }
      unfold zn_program, profile_program in E. unfold calculate_mp. cbn [finss map option_map] in E. change (Z.of_nat 0) with 0%Z in E.
      change (Fin 0%R) with (fzero : num R) in E. unfold znorm_prepare.
      destruct (any_new (@zn R) (@mplr R) shuffle (Z.of_nat m) [fin (ser s)] (Some [fin (ser t)]) None) as [a0|]; cbn [bind] in *; [|discriminate].
      destruct (any_add_generator _ a0 0) as [a1|]; cbn [bind] in *; [|discriminate].
      destruct (add_consumer _ _ _) as [s2|]; cbn [bind] in *; [|discriminate]. cbn [foldM any_call] in E.
      destruct (any_columns _ _ _ _ _ _ _) as [a2|]; cbn [bind] in *; [|discriminate].
      destruct (ca_cons (an_calc a2)) as [|[c ids] l]; [discriminate|]. inversion E. cbn [getitem nth_error bind fst]. congruence.
  Qed.

  Lemma mapM_map {S T U} (f : T -> res U) (g : S -> T) l : mapM f (map g l) = mapM (fun x => f (g x)) l.
  Proof. clear. induction l as [|x l IH]; [reflexivity|]. cbn [map mapM]. rewrite IH. reflexivity. Qed.
  Lemma mapM_ok {S T} (f : S -> res T) (g : S -> T) l : (forall x, In x l -> f x = Ok (g x)) -> mapM f l = Ok (map g l).
  Proof. clear. induction l as [|x l IH]; intro H; [reflexivity|]. cbn [mapM map]. rewrite H by (left; reflexivity). cbn [bind]. rewrite IH by (intros; apply H; right; assumption). reflexivity. Qed.

  Section Series.
    Variables (nig s : nat).
    Hypothesis Hs : s < n.
    Hypothesis Hn : 2 <= n.
    Hypothesis Hnig : nig + 2 <= n.
    Notation rows := (map (fun j => fin (map (dm s ((s + 1 + j) mod n)) (seq 0 (cols s)))) (seq 0 (nig + 1))).

    Lemma candidate_ok st i P : gens_fine (fst st) -> best_inv (code_rad nig) P (snd st) -> i < cols s ->
      exists st', try_candidate mem (n - nig - 2) (Z.of_nat m) s ((s + nig + 2) mod n) (fin (ser s)) rows st i = Ok st' /\ gens_fine (fst st') /\
        best_inv (code_rad nig) (fun s' i' => P s' i' \/ (s' = s /\ i' = i)) (snd st').
    Proof.
      intros HG HB Hi. unfold try_candidate. rewrite mapM_map. rewrite mapM_ok with (g := fun j => Fin (dm s ((s + 1 + j) mod n) i)).
      2:{ intros j _. unfold getitem. rewrite !nth_error_map, nth_error_seq. destruct (Nat.ltb_spec i (cols s)); [reflexivity|lia]. }
      cbn [bind]. rewrite <- (map_map (fun j => dm s ((s + 1 + j) mod n) i) (@Fin R)). fold (first_radii nig s i).
      assert (HN : first_radii nig s i <> []) by (unfold first_radii; rewrite (Nat.add_1_r nig); discriminate).
      assert (Hi' : i + m <= length (ser s)) by (unfold POstinato.cols in Hi; pose proof (ser_long C HC Hs); lia).
      destruct (@check_rest_ok (n - nig - 2) s ((s + nig + 2) mod n) i (cm_radius (snd st)) Hs ltac:(apply Nat.mod_upper_bound; lia) Hi' (fst st) (first_radii nig s i) HN HG) as (gens' & l' & a & E & HG' & H1 & H2).
      rewrite E. cbn [bind snd fst]. destruct a.
      - eexists. split; [reflexivity|]. split; [exact HG'|]. cbn [snd]. apply best_inv_drop; [exact HB|]. intros s' i' [-> ->]. unfold code_rad. apply H2. reflexivity.
      - rewrite (H1 eq_refl), amin_fin by (apply rounds_ne; exact HN). cbn [bind]. eexists. split; [reflexivity|]. split; [exact HG'|]. cbn [snd]. fold (code_rad nig s i). apply best_inv_take. exact HB.
    Qed.
    Lemma candidates_ok cands : (forall i, In i cands -> i < cols s) -> forall st P, gens_fine (fst st) -> best_inv (code_rad nig) P (snd st) ->
      exists st', foldM (try_candidate mem (n - nig - 2) (Z.of_nat m) s ((s + nig + 2) mod n) (fin (ser s)) rows) cands st = Ok st' /\ gens_fine (fst st') /\
        best_inv (code_rad nig) (fun s' i' => P s' i' \/ (s' = s /\ In i' cands)) (snd st').
    Proof.
      induction cands as [|i cands IH]; intros Hc st P HG HB.
      - exists st. split; [reflexivity|]. split; [exact HG|]. eapply best_inv_ext; [|exact HB]. cbn [In]. tauto.
      - cbn [foldM]. destruct (@candidate_ok st i P HG HB (Hc i (or_introl eq_refl))) as (st1 & E1 & HG1 & HB1). rewrite E1. cbn [bind].
        destruct (IH (fun j Hj => Hc j (or_intror Hj)) st1 _ HG1 HB1) as (st2 & E2 & HG2 & HB2). exists st2. split; [exact E2|]. split; [exact HG2|].
        eapply best_inv_ext; [|exact HB2]. intros s' i'. cbn [In]. intuition congruence.
    Qed.
    Lemma axis_rows : exists l, length l = cols s /\ mapM amin (axis0 rows) = Ok (fin l).
    Proof.
      exists (map (fun p => rmin (first_radii nig s p)) (seq 0 (cols s))). split; [rewrite map_length, seq_length; reflexivity|].
      unfold axis0. replace (length (hd [] rows)) with (cols s) by (rewrite (Nat.add_1_r nig); cbn [seq map hd]; rewrite !map_length, seq_length; reflexivity).
      rewrite mapM_map, map_map. apply mapM_ok. intros p Hp%in_seq. rewrite map_map.
      rewrite <- amin_fin by (unfold first_radii; rewrite (Nat.add_1_r nig); discriminate). unfold first_radii. rewrite map_map. f_equal. apply map_ext. intro j.
      rewrite map_map. rewrite (nth_indep _ NaN (Fin (dm s ((s + 1 + j) mod n) 0))) by (rewrite map_length, seq_length; lia).
      rewrite (map_nth (fun x => Fin (dm s ((s + 1 + j) mod n) x))), seq_nth by lia. reflexivity.
    Qed.
    Lemma subset_ok st : gens_fine (fst st) -> best_inv (code_rad nig) (before m C s) (snd st) ->
      exists st', subset_series mem memb argsort set_order shuffle (fun _ _ => never) (map (map (@Fin R)) C) (Z.of_nat m) nig st s = Ok st' /\ gens_fine (fst st') /\ best_inv (code_rad nig) (before m C (Datatypes.S s)) (snd st').
    Proof.
      intros HG HB. unfold subset_series. rewrite map_length, getitem_fin by exact Hs. cbn [bind].
      rewrite mapM_ok with (g := fun j => fin (map (dm s ((s + 1 + j) mod n)) (seq 0 (cols s)))).
      2:{ intros j _. assert (Hj : (s + 1 + j) mod n < n) by (apply Nat.mod_upper_bound; lia). rewrite getitem_fin by exact Hj. cbn [bind]. apply mp_ok; assumption. }
      cbn [bind]. destruct axis_rows as (l & Ll & El). rewrite El. cbn [bind]. destruct (Hsort l) as [HP _]. rewrite Ll in HP.
      destruct (@candidates_ok (argsort (fin l))) with (st := st) (P := before m C s) as (st' & E & HG' & HB'); auto.
      { intros i Hin. apply (Permutation_in _ HP), in_seq in Hin. lia. }
      exists st'. split; [exact E|]. split; [exact HG'|]. eapply best_inv_ext; [|exact HB']. intros s' i'. unfold before. cbn beta. split.
      - intros [(H1 & H2 & H3)|[-> H]]; [lia|]. apply (Permutation_in _ HP), in_seq in H. lia.
      - intros (H1 & H2 & H3). destruct (Nat.eq_dec s' s) as [->|Hne]; [right; split; [reflexivity|]; apply (Permutation_in _ (Permutation_sym HP)), in_seq; lia|left; lia].
    Qed.
  End Series.

  Lemma subset_all k : 2 <= n -> 3 <= m -> 2 <= k -> k <= n ->
    exists b, find_consensus_motif_subset mem memb argsort set_order shuffle (fun _ _ => never) (map (map (@Fin R)) C) (Z.of_nat m) (Z.of_nat k) = Ok b /\
      best_inv (code_rad (n - k)) (before m C n) b.
  Proof.
    intros Hn Hm3 Hk1 Hk2. unfold find_consensus_motif_subset. rewrite map_length. destruct (Nat.ltb_spec n 2); [lia|]. destruct (Z.ltb_spec (Z.of_nat m) 3); [lia|].
    destruct (Z.ltb_spec (Z.of_nat k) 2); [lia|]. destruct (Z.ltb_spec (Z.of_nat n) (Z.of_nat k)); [lia|]. cbn [orb]. rewrite lengths_ok by exact HC. cbn [bind].
    destruct gens_new as (gens & E & HG). rewrite E. cbn [bind]. replace (Z.to_nat (Z.of_nat n - Z.of_nat k)) with (n - k) by lia.
    assert (L : forall j, j <= n -> exists st, foldM (subset_series mem memb argsort set_order shuffle (fun _ _ => never) (map (map (@Fin R)) C) (Z.of_nat m) (n - k)) (seq 0 j) (gens, cm_start) = Ok st /\ gens_fine (fst st) /\ best_inv (code_rad (n - k)) (before m C j) (snd st)).
    { induction j as [|j IH]; intro Hj.
      - eexists. split; [reflexivity|]. split; [exact HG|]. left. split; [reflexivity|]. unfold before. lia.
      - destruct IH as (st & Es & HGs & HBs); [lia|]. rewrite seq_S, foldM_app, Es. cbn [bind foldM Nat.add].
        destruct (@subset_ok (n - k) j Hj Hn ltac:(lia) st HGs HBs) as (st' & E' & HG' & HB'). rewrite E'. cbn [bind]. eauto. }
    destruct (L n (Nat.le_refl n)) as (st & Es & _ & HB). rewrite Es. cbn [bind]. eauto.
  Qed.
End Collection.

(** ** The k-th smallest distance *)
Lemma second_smallest d l : l <> [] -> nth_error (rsort (l ++ [d])) 1 = Some (rmin (raise d l)).
Proof.
  intro H. assert (E : rsort (l ++ [d]) = rinsert d (rsort l)).
  { apply sorted_unique; [apply rsort_sorted|apply rinsert_sorted, rsort_sorted|]. rewrite rsort_perm, rinsert_perm, rsort_perm, Permutation_app_comm. reflexivity. }
  rewrite E. pose proof (rsort_sorted l) as HS. pose proof (rsort_length l) as HL. unfold raise. destruct (rsort l) as [|x l']; [destruct l; [congruence|discriminate]|].
  cbn [rinsert]. inversion HS as [|? ? HS' HF]; subst. destruct (Rltb_spec x d) as [Hlt|Hge]; cbn [nth_error].
  - replace (Rmax x d) with d by (symmetry; apply Rmax_right; lra). rewrite <- (rmin_perm (rinsert_perm d l')). pose proof (rinsert_sorted d HS') as HI.
    destruct (rinsert d l') as [|y l2] eqn:Ei; [pose proof (Permutation_length (rinsert_perm d l')) as Lp; rewrite Ei in Lp; discriminate|]. cbn [nth_error]. rewrite (rmin_sorted HI). reflexivity.
  - replace (Rmax x d) with x by (symmetry; apply Rmax_left; lra). rewrite (rmin_sorted HS). reflexivity.
Qed.
Lemma first_smallest l : l <> [] -> nth_error (rsort l) 0 = Some (rmin l).
Proof.
  intro H. rewrite <- (rmin_perm (rsort_perm l)). pose proof (rsort_sorted l) as HS. pose proof (rsort_length l) as HL. destruct (rsort l) as [|x l']; [destruct l; [congruence|discriminate]|].
  rewrite (rmin_sorted HS). reflexivity.
Qed.

Section Radii.
  Variable m : nat.
  Variable C : list (list R).
  Hypothesis Hm : 0 < m.
  Hypothesis HC : forall S, In S C -> m <= length S.
  Notation n := (length C).
  Notation dm := (dm m C).

  Lemma others_eq s : s < n -> others C s = seq 0 s ++ seq (s + 1) (n - 1 - s).
  Proof.
    clear. intro Hs. unfold others. replace n with (s + (1 + (n - 1 - s))) at 1 by lia. rewrite seq_app, seq_app, !filter_app. cbn [Nat.add seq filter]. rewrite Nat.eqb_refl. cbn [negb app].
    assert (F : forall l, (forall t, In t l -> t <> s) -> filter (fun t => negb (t =? s)) l = l).
    { induction l as [|t l IH]; intro Hl; [reflexivity|]. cbn [filter]. destruct (Nat.eqb_spec t s) as [E|E]; [exfalso; apply (Hl t); [left; reflexivity|exact E]|]. cbn [negb]. rewrite IH; [reflexivity|]. intros; apply Hl; right; assumption. }
    rewrite !F; [reflexivity| |]; intros t Ht%in_seq; lia.
  Qed.
  Lemma rotation s : s < n -> Permutation (map (fun j => (s + 1 + j) mod n) (seq 0 (n - 1))) (others C s).
  Proof.
    intro Hs. rewrite others_eq by exact Hs. clear - Hs. replace (n - 1) with ((n - 1 - s) + s) at 1 by lia. rewrite seq_app, map_app.
    assert (E1 : map (fun j => (s + 1 + j) mod n) (seq 0 (n - 1 - s)) = seq (s + 1) (n - 1 - s)).
    { apply nth_error_ext. intro j. rewrite nth_error_map, !nth_error_seq. destruct (Nat.ltb_spec j (n - 1 - s)); [|reflexivity]. cbn [option_map Nat.add]. f_equal. apply Nat.mod_small. lia. }
    assert (E2 : map (fun j => (s + 1 + j) mod n) (seq (0 + (n - 1 - s)) s) = seq 0 s).
    { apply nth_error_ext. intro j. rewrite nth_error_map, !nth_error_seq. destruct (Nat.ltb_spec j s); [|reflexivity]. cbn [option_map]. f_equal.
      replace (s + 1 + (0 + (n - 1 - s) + j)) with (j + 1 * n) by lia. rewrite Nat.mod_add by lia. rewrite Nat.mod_small by lia. reflexivity. }
    rewrite E1, E2. apply Permutation_app_comm.
  Qed.

  Definition all_radii (s i : nat) : list R := map (fun t => dm s t i) (others C s).
  Lemma radius_k_iff k s i v : radius_k m C k s i v <-> 1 <= k /\ nth_error (rsort (all_radii s i)) (k - 1) = Some v.
  Proof.
    split.
    - intros (d & l & Hd & HP & HS & Hk & E). split; [exact Hk|]. rewrite <- E. f_equal. apply sorted_unique; [apply rsort_sorted|exact HS|]. rewrite rsort_perm, HP. unfold all_radii.
      erewrite map_ext_in; [reflexivity|]. intros t Ht. unfold others in Ht. apply filter_In in Ht. destruct Ht as [Ht%in_seq Hts]. apply negb_true_iff, Nat.eqb_neq in Hts. symmetry. apply best_match_dm; [exact Hm|exact HC|lia|]. apply Hd; [lia|exact Hts].
    - intros [Hk E]. exists (fun t => dm s t i), (rsort (all_radii s i)). split; [intros t Ht _; apply dm_best; assumption|]. split; [apply rsort_perm|]. split; [apply rsort_sorted|]. auto.
  Qed.
  Lemma all_radii_rot s i : s < n -> rsort (all_radii s i) = rsort (first_radii m C (n - 2) s i) \/ n < 2.
  Proof.
    intro Hs. destruct (Nat.lt_ge_cases n 2) as [H|H]; [right; exact H|left]. apply sorted_unique; [apply rsort_sorted|apply rsort_sorted|]. rewrite !rsort_perm. unfold all_radii, first_radii.
    rewrite <- (rotation Hs), map_map. replace (n - 2 + 1) with (n - 1) by lia. reflexivity.
  Qed.

  Lemma code_rad_2 s i : 2 <= n -> s < n -> radius_k m C 1 s i (code_rad m C (n - 2) s i).
  Proof.
    intros Hn Hs. apply radius_k_iff. split; [lia|]. destruct (all_radii_rot i Hs) as [E|E]; [|lia]. rewrite E. unfold code_rad. replace (n - (n - 2) - 2) with 0 by lia. cbn [rounds].
    apply first_smallest. unfold first_radii. rewrite (Nat.add_1_r (n - 2)). discriminate.
  Qed.
  Lemma code_rad_3 s i : 3 <= n -> s < n -> radius_k m C 2 s i (code_rad m C (n - 3) s i).
  Proof.
    intros Hn Hs. apply radius_k_iff. split; [lia|]. destruct (all_radii_rot i Hs) as [E|E]; [|lia]. rewrite E. unfold code_rad. replace (n - (n - 3) - 2) with 1 by lia. cbn [rounds].
    assert (EF : first_radii m C (n - 2) s i = first_radii m C (n - 3) s i ++ [dm s ((s + (n - 3) + 2) mod n) i]).
    { unfold first_radii. replace (n - 2 + 1) with (Datatypes.S (n - 3 + 1)) by lia. rewrite seq_S, map_app. cbn [map]. do 3 f_equal. f_equal. lia. }
    rewrite EF. apply second_smallest. unfold first_radii. rewrite (Nat.add_1_r (n - 3)). discriminate.
  Qed.
  Lemma radius_k_unique k s i v v' : radius_k m C k s i v -> radius_k m C k s i v' -> v = v'.
  Proof. intros [_ H1]%radius_k_iff [_ H2]%radius_k_iff. congruence. Qed.
  Lemma radius_k_total k s i : s < n -> 1 <= k -> k < n -> exists v, radius_k m C k s i v.
  Proof.
    intros Hs H1 H2. destruct (nth_error (rsort (all_radii s i)) (k - 1)) as [v|] eqn:E; [exists v; apply radius_k_iff; auto|]. exfalso. apply nth_error_None in E. rewrite rsort_length in E. unfold all_radii in E.
    rewrite map_length, others_eq, app_length, !seq_length in E by exact Hs. lia.
  Qed.
End Radii.

(** * PEndCols: RadiusProfile with repeated ranks, and the consumers that process columns only in complete programs *)
From Coq Require Import Permutation Sorted.
From Verif Require Import Np NpFacts Mat MUtil SLog MProfile PLog PSort PUtil MInsights SInsights PInsights MCounters SCounters SCols PCounters SMixed SEnd SEndAll SEndCons PEndCons.
Set Implicit Arguments.
Open Scope nat_scope.

Lemma rises_dec track i : rises track 0 i \/ ~ rises track 0 i.
Proof.
  induction i as [|i IH]; [left; intros x p q Hx; lia|]. destruct IH as [R|R]; [|right; intro C; apply R; intros x p q Hx; apply C; lia].
  destruct (nth_error track i) as [p|] eqn:Ep; [|left; intros x p q Hx Hp; destruct (Nat.eq_dec x i) as [->|]; [congruence|apply R; [lia|assumption]]].
  destruct (nth_error track (S i)) as [q|] eqn:Eq; [|left; intros x p' q Hx Hp Hq; destruct (Nat.eq_dec x i) as [->|]; [congruence|apply (R x); [lia|assumption|assumption]]].
  destruct (lt_dec p q) as [L|L]; [left|right; intro C; apply L; exact (C i p q ltac:(lia) Ep Eq)].
  intros x p' q' Hx Hp Hq. destruct (Nat.eq_dec x i) as [->|]; [congruence|apply (R x); [lia|assumption|assumption]].
Qed.

Section Radius.
  Context {A : Type} {NA : NumOps A} {OL : OrdLaws A}.
  Notation num := (Np.num A).

  Lemma rp_loop_stuck (track : list nat) c (values : list num) ti k : nth_error track ti = Some k ->
    forall yields i (m : mat num), k < i -> rp_loop track c values yields i ti m = Ok m.
  Proof.
    intro Hk. induction yields as [|low yields IH]; intros i m Hi; [reflexivity|]. cbn [rp_loop]. rewrite (proj2 (getitem_ok _ _ _) Hk). cbn [bind].
    destruct (Nat.eqb_spec i k); [lia|]. apply IH. lia.
  Qed.

  Lemma rp_loop_any (track : list nat) c w (values : list num) : StronglySorted le track -> c < w ->
    forall yields i ti (m : mat num), is_mat (length track) w m -> ti < length track ->
    (forall k, nth_error track ti = Some k -> i <= k) ->
    (forall low, In low yields -> low < length values) ->
    exists m', rp_loop track c values yields i ti m = Ok m' /\ is_mat (length track) w m' /\
      (forall t k, nth_error track t = Some k ->
         (ti <= t -> rises track ti t -> mget m' t c = match nth_error yields (k - i) with Some low => getitem values low | None => mget m t c end) /\
         (t < ti \/ ~ rises track ti t -> mget m' t c = mget m t c)) /\
      (forall t j, j <> c -> mget m' t j = mget m t j).
  Proof.
    intros Hs Hc. induction yields as [|low yields IH]; intros i ti m M Hti Hik Hy.
    - exists m. split; [reflexivity|]. split; [exact M|]. split; [|auto]. intros t k Hk. split; [|auto]. destruct (k - i); reflexivity.
    - cbn [rp_loop]. destruct (@nth_error_lt_some _ track ti Hti) as [k Hk]. rewrite (proj2 (getitem_ok _ _ _) Hk). cbn [bind].
      specialize (Hik k Hk) as Hik'.
      assert (Hy' : forall l, In l yields -> l < length values) by (intros l Hl; apply Hy; right; exact Hl).
      assert (Hge : forall t k', ti < t -> nth_error track t = Some k' -> k <= k').
      { intros t k' Ht Hk'. exact (@sorted_nth _ _ _ Hs _ _ _ _ Ht Hk Hk'). }
      destruct (Nat.eqb_spec i k) as [->|Hne].
      + destruct (@nth_error_lt_some _ values low) as [v Hv]; [apply Hy; left; reflexivity|].
        rewrite (proj2 (getitem_ok _ _ _) Hv). cbn [bind].
        destruct (mset_spec v M Hti Hc) as (m1 & E1 & M1 & G1). rewrite E1. cbn [bind].
        assert (Hcur : forall k', nth_error track ti = Some k' -> mget m1 ti c = match nth_error (low :: yields) (k' - k) with Some l => getitem values l | None => mget m ti c end).
        { intros k' Hk'. assert (k' = k) by congruence. subst k'. rewrite G1, !Nat.eqb_refl, Nat.sub_diag. cbn [andb nth_error]. symmetry. apply getitem_ok, Hv. }
        assert (Hoth : forall t, t <> ti -> mget m1 t c = mget m t c).
        { intros t Ht. rewrite G1. destruct (Nat.eqb_spec t ti); [contradiction|reflexivity]. }
        assert (Hcol : forall t j, j <> c -> mget m1 t j = mget m t j).
        { intros t j Hj. rewrite G1. destruct (Nat.eqb_spec j c); [contradiction|]. rewrite andb_false_r. reflexivity. }
        assert (R0 : forall t, t <= ti -> rises track ti t) by (intros t Ht x p q Hx; lia).
        destruct (Nat.leb_spec (length track) (S ti)) as [Hend|Hend].
        * exists m1. split; [reflexivity|]. split; [exact M1|]. split; [|exact Hcol].
          intros t k' Ht. assert (t < length track) by (eapply nth_error_some_lt; exact Ht). split.
          -- intros Hle _. assert (t = ti) by lia. subst t. apply Hcur, Ht.
          -- intros [Hlt|Hr]; [apply Hoth; lia|]. exfalso. apply Hr, R0. lia.
        * destruct (@nth_error_lt_some _ track (S ti) Hend) as [k1 Hk1]. pose proof (Hge (S ti) k1 (Nat.lt_succ_diag_r _) Hk1) as Hk01.
          destruct (Nat.eq_dec k1 k) as [->|Hk1ne].
          -- rewrite (@rp_loop_stuck track c values (S ti) k Hk1 yields (S k) m1 (Nat.lt_succ_diag_r k)). exists m1. split; [reflexivity|]. split; [exact M1|]. split; [|exact Hcol].
             intros t k' Ht. split.
             ++ intros Hle Hr. destruct (Nat.eq_dec t ti) as [->|Htne]; [apply Hcur, Ht|]. exfalso. pose proof (Hr ti k k ltac:(lia) Hk Hk1). lia.
             ++ intros [Hlt|Hr]; [apply Hoth; lia|]. apply Hoth. intros ->. apply Hr, R0. lia.
          -- destruct (IH (S k) (S ti) m1 M1 Hend) as (m' & E' & M' & G' & O').
             { intros k' Hk'. assert (k' = k1) by congruence. lia. }
             { exact Hy'. }
             assert (RS : forall t, S ti <= t -> rises track ti t <-> rises track (S ti) t).
             { intros t Ht. split; intros Hr x p q Hx Hp Hq; [apply (Hr x p q); auto; lia|]. destruct (Nat.eq_dec x ti) as [->|]; [assert (p = k) by congruence; assert (q = k1) by congruence; lia|apply (Hr x p q); auto; lia]. }
             exists m'. split; [exact E'|]. split; [exact M'|]. split; [|intros t j Hj; rewrite (O' t j Hj); apply Hcol, Hj].
             intros t k' Ht. destruct (G' t k' Ht) as [G1' G2']. split.
             ++ intros Hle Hr. destruct (Nat.eq_dec t ti) as [->|Htne].
                ** rewrite G2' by (left; lia). apply Hcur, Ht.
                ** rewrite (G1' ltac:(lia) (proj1 (RS t ltac:(lia)) Hr)). rewrite (Hoth t Htne).
                   assert (k < k'). { assert (k1 <= k') by (destruct (Nat.eq_dec t (S ti)) as [->|]; [assert (k1 = k') by congruence; lia|apply (@sorted_nth _ _ _ Hs (S ti) t); auto; lia]). lia. }
                   replace (k' - k) with (S (k' - S k)) by lia. reflexivity.
             ++ intros [Hlt|Hr].
                ** rewrite G2' by (left; lia). apply Hoth. lia.
                ** destruct (le_lt_dec t ti) as [Hle|Hgt]; [exfalso; apply Hr, R0, Hle|]. rewrite G2'; [apply Hoth; lia|]. right. intro C. apply Hr, RS; [lia|exact C].
      + destruct (IH (S i) ti m M Hti) as (m' & E' & M' & G' & O').
        { intros k' Hk'. assert (k' = k) by congruence. lia. }
        { exact Hy'. }
        exists m'. split; [exact E'|]. split; [exact M'|]. split; [|exact O'].
        intros t k' Ht. destruct (G' t k' Ht) as [G1' G2']. split; [|exact G2']. intros Hle Hr. rewrite (G1' Hle Hr).
        assert (k <= k') by (destruct (Nat.eq_dec t ti) as [->|]; [assert (k' = k) by congruence; lia|apply (Hge t); [lia|exact Ht]]).
        replace (k' - i) with (S (k' - S i)) by lia. reflexivity.
  Qed.

  (** One column, for any ranks *)
  Lemma radius_column (s : @rp A) w c (vals : list num) rest d : StronglySorted le (rp_track s) -> rp_track s <> [] ->
    rp_excl s = Z.of_nat d -> is_mat (length (rp_track s)) w (rp_values s) -> c < w -> vals <> [] ->
    exists s' out, rp_col s c (vals :: rest) = Ok s' /\ rp_track s' = rp_track s /\ rp_excl s' = rp_excl s /\ is_mat (length (rp_track s)) w (rp_values s') /\
      greedy nltb vals d [] out /\
      (forall i k, nth_error (rp_track s) i = Some k ->
         (rises (rp_track s) 0 i -> match nth_error out k with
           | Some j => exists v, nth_error vals j = Some (Fin v) /\ mget (rp_values s') i c = Ok (Fin v)
           | None => mget (rp_values s') i c = mget (rp_values s) i c
           end) /\
         (~ rises (rp_track s) 0 i -> mget (rp_values s') i c = mget (rp_values s) i c)) /\
      (forall i j, j <> c -> mget (rp_values s') i j = mget (rp_values s) i j).
  Proof.
    intros Hs Hne Hd M Hc Hv. unfold rp_col. cbn [row0 bind]. rewrite Hd.
    destruct (@C09_lemma _ _ _ vals d (length vals) Hv (le_n _)) as (out & E & G). rewrite E. cbn [bind].
    destruct (@C09_consequences_lemma _ _ _ vals d (length vals) out Hv (le_n _) E) as (_ & _ & Hin & _).
    destruct (@rp_loop_any (rp_track s) c w vals Hs Hc out 0 0 (rp_values s) M) as (m' & E' & M' & G' & O').
    - destruct (rp_track s); [congruence|simpl; lia].
    - intros; lia.
    - intros low Hl. destruct (Hin low Hl) as (v & Hv'). eapply nth_error_some_lt; exact Hv'.
    - rewrite E'. cbn [bind]. do 2 eexists. split; [reflexivity|]. cbn [rp_track rp_values rp_excl]. do 2 (split; [reflexivity || (symmetry; exact Hd)|]). split; [exact M'|].
      split; [exact G|]. split; [|exact O']. intros i k Hk. destruct (G' i k Hk) as [G1 G2]. split; [|intro Hr; apply G2; right; exact Hr]. intro Hr. specialize (G1 (Nat.le_0_l _) Hr). rewrite Nat.sub_0_r in G1.
      destruct (nth_error out k) as [j|] eqn:Ej; [|exact G1].
      destruct (Hin j) as (v & Hv'); [eapply nth_error_In; exact Ej|]. exists v. split; [exact Hv'|]. rewrite G1. apply getitem_ok, Hv'.
  Qed.
End Radius.

Section Columns.
  Context {A : Type} {NA : NumOps A} {OL : OrdLaws A}.
  Notation num := (Np.num A).

  Lemma greedy_unique (better : A -> A -> bool) (array : list num) d chosen out : greedy better array d chosen out -> forall out', greedy better array d chosen out' -> out' = out.
  Proof.
    clear OL. induction 1 as [chosen Hs|chosen i v rest He Hb Hg IH]; intros out' H'; inversion H' as [ch Hs' E1 E2|ch i' v' rest' He' Hb' Hg' E1 E2]; subst.
    - reflexivity.
    - exfalso. exact (Hs _ _ He').
    - exfalso. exact (Hs' _ _ He).
    - destruct (Hb _ _ He') as [B1 B2]. destruct (Hb' _ _ He) as [B1' B2']. destruct (Nat.lt_trichotomy i i') as [L|[->|L]].
      + specialize (B2' L). congruence.
      + f_equal. apply IH, Hg'.
      + specialize (B2 L). congruence.
  Qed.

  Variables (h w : nat) (F : nat -> list num).

  Lemma radius_columns track d cs : (forall c, c < w -> F c <> []) -> track <> [] -> (forall k, In k track -> (0 <= k)%Z) -> (forall c, In c cs -> c < w) ->
    exists s0 s, @rp_init A track (Z.of_nat d) h w = Ok s0 /\ foldM rp_step (map (fun c => ECol c [F c]) cs) s0 = Ok s /\ Permutation (map Z.of_nat (rp_track s)) track /\ StronglySorted le (rp_track s) /\ is_mat (length track) w (rp_values s) /\
      forall j out, j < w -> greedy nltb (F j) d [] out -> forall i k, nth_error (rp_track s) i = Some k -> exists v, mget (rp_values s) i j = Ok v /\
        (In j cs -> rises (rp_track s) 0 i -> match nth_error out k with Some r => nth_error (F j) r = Some v | None => v = NaN end) /\
        (~ In j cs \/ ~ rises (rp_track s) 0 i -> v = NaN).
  Proof.
    intros HF Ht Hp. destruct (@rp_init_lemma A track (Z.of_nat d) h w Ht Hp ltac:(lia)) as (s0 & E0 & He & L & HP & HS & M & _ & G0).
    intro Hw. enough (G : exists s, foldM rp_step (map (fun c => ECol c [F c]) cs) s0 = Ok s /\ rp_track s = rp_track s0 /\ rp_excl s = Z.of_nat d /\ is_mat (length (rp_track s0)) w (rp_values s) /\
      forall j out, j < w -> greedy nltb (F j) d [] out -> forall i k, nth_error (rp_track s0) i = Some k -> exists v, mget (rp_values s) i j = Ok v /\
        (In j cs -> rises (rp_track s0) 0 i -> match nth_error out k with Some r => nth_error (F j) r = Some v | None => v = NaN end) /\
        (~ In j cs \/ ~ rises (rp_track s0) 0 i -> v = NaN)).
    { destruct G as (s & E & Et & _ & M' & G). exists s0, s. rewrite Et. rewrite L in M'. auto 10. }
    revert Hw. induction cs as [|c cs IH] using rev_ind; intro Hw.
    - exists s0. split; [reflexivity|]. split; [reflexivity|]. split; [exact He|]. split; [exact M|]. intros j out Hj _ i k Hi. exists NaN. assert (i < length (rp_track s0)) by (apply nth_error_Some; congruence).
      split; [apply G0; lia|]. split; [intros []|reflexivity].
    - destruct IH as (s & E & Et & Ee & M' & G); [intros; apply Hw, in_app_iff; auto|]. rewrite map_app, foldM_app, E. cbn [map foldM bind rp_step].
      assert (Hc : c < w) by (apply Hw, in_app_iff; right; left; reflexivity). rewrite <- Et in M', HS.
      destruct (@radius_column A NA OL s w c (F c) [] d HS ltac:(rewrite Et; intro C; rewrite C in L; destruct track; [congruence|discriminate]) Ee M' Hc (HF c Hc)) as (s' & o & E' & Et' & Ee' & M'' & Hg & G1 & G2).
      rewrite Et in *. rewrite E'. cbn [bind]. exists s'. split; [reflexivity|]. split; [exact Et'|]. split; [congruence|]. split; [exact M''|].
      intros j out Hj Ho i k Hi. destruct (G j out Hj Ho i k Hi) as (v & Ev & V1 & V2). destruct (G1 i k Hi) as [G1a G1b]. destruct (Nat.eq_dec j c) as [->|Hne].
      + assert (out = o) by (symmetry; apply (greedy_unique Ho Hg)). subst o.
        assert (Ej : In c cs \/ ~ In c cs) by (destruct (in_dec Nat.eq_dec c cs); auto).
        destruct (nth_error out k) as [r|] eqn:Er.
        * assert (DEC : rises (rp_track s0) 0 i \/ ~ rises (rp_track s0) 0 i) by (apply rises_dec).
          destruct DEC as [R|R].
          -- destruct (G1a R) as (x & Hx & Ex). exists (Fin x). split; [exact Ex|]. split; [intros _ _; exact Hx|]. intros [C|C]; [|contradiction]. exfalso. apply C, in_app_iff. right. left. reflexivity.
          -- exists v. rewrite (G1b R). split; [exact Ev|]. split; [contradiction|]. intros _. apply V2. auto.
        * assert (DEC : rises (rp_track s0) 0 i \/ ~ rises (rp_track s0) 0 i) by (apply rises_dec).
          assert (Ev' : mget (rp_values s') i c = Ok v) by (destruct DEC as [R|R]; [rewrite (G1a R)|rewrite (G1b R)]; exact Ev).
          assert (Hv : v = NaN) by (destruct DEC as [R|R]; [destruct Ej as [Hin|Hin]; [apply V1; assumption|apply V2; auto]|apply V2; auto]).
          exists v. split; [exact Ev'|]. split; intros; exact Hv.
      + exists v. rewrite (G2 i j Hne). split; [exact Ev|]. split.
        * intros Hin R. apply V1; [|exact R]. apply in_app_iff in Hin. destruct Hin as [Hin|[Hin|[]]]; [exact Hin|congruence].
        * intros [Hin|R]; apply V2; [left; intro C; apply Hin, in_app_iff; auto|right; exact R].
  Qed.

  Lemma counter_columns (argsort : list num -> list nat) thr excl cs : no_nan thr -> thr <> [] -> (forall c, c < w -> no_nan (F c) /\ sorting_order (F c) (argsort (F c))) -> (forall c, In c cs -> c < w) ->
    exists s, foldM (dtc_step argsort) (map (fun c => ECol c [F c]) cs) (dtc_init thr excl h w) = Ok s /\ Permutation thr (dt_thr s) /\
      (forall p q a b, p < q -> nth_error (dt_thr s) p = Some a -> nth_error (dt_thr s) q = Some b -> fleb a b = true) /\
      forall p t j picks, nth_error (dt_thr s) p = Some t -> j < w -> scan excl [] (argsort (F j)) picks -> mget (dt_counts s) p j = Ok (count_occ Nat.eq_dec cs j * length (filter (le_at (F j) t) picks)).
  Proof.
    intros N0 Hne HF Hw. destruct (@C42_run_lemma A NA OL thr excl h w N0 Hne (map (fun c => (argsort (F c), c, F c)) cs)) as (s & ps & E & HP & Hs & Hps & G).
    - intros o c v Hin. apply in_map_iff in Hin. destruct Hin as (c' & Ec & Hc). injection Ec as <- <- <-. specialize (Hw _ Hc). destruct (HF _ Hw). auto.
    - exists s. split; [|split; [exact HP|split; [exact Hs|]]].
      + rewrite <- E. clear. generalize (dtc_init thr excl h w). induction cs as [|c cs IH]; intro s0; [reflexivity|]. cbn [map foldM dtc_step row0 bind]. destruct (dtc_col _ s0 c _); [apply IH|reflexivity].
      + intros p t j picks Hp Hj Hsc. rewrite (G p t j Hp Hj). f_equal. clear - Hps Hsc. revert ps Hps. induction cs as [|c cs IH]; intros ps Hps; cbn [map] in Hps; inversion Hps as [|x pk l l' Hx Hl]; subst; [reflexivity|]. cbn [map combine fold_right count_occ fst].
        rewrite (IH _ Hl). destruct (Nat.eqb_spec c j) as [->|Hne]; destruct (Nat.eq_dec _ j) as [E|E]; try congruence. cbn [fst] in Hx. rewrite (scan_unique Hx Hsc). reflexivity.
  Qed.
End Columns.

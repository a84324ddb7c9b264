(** * PMultiRun: histories of MultidimensionalMatrixProfileLR *)
From Coq Require Import QArith Permutation Sorted.
From Verif Require Import Np NpFacts Mat SLog PLog MRing PRing PFullRb MProfile PProfile PShift PSort MMulti SMulti PMulti.
Set Implicit Arguments.
Open Scope nat_scope.

Lemma log_bound_gen {T} h w (es : list (event T)) : Forall (fits h w) es -> forall r c v, In (r, c, v) (log es) ->
  (c < sshift es + Z.of_nat w)%Z.
Proof.
  intro H. induction es as [|e es IH] using rev_ind; intros r c v Hi; [destruct Hi|].
  apply Forall_app in H. destruct H as [H He]. apply Forall_inv in He.
  rewrite log_snoc in Hi. rewrite sshift_app. cbn [sshift].
  apply in_app_or in Hi. destruct Hi as [Hi|Hi].
  - specialize (IH H _ _ _ Hi). destruct e; cbn [event_sshift]; lia.
  - destruct e as [d vs|cc vs|n|n]; cbn [event_cells event_sshift] in *; [| |destruct Hi|destruct Hi].
    + destruct He as (Hd & vals & rest & -> & Hv1 & Hv2). apply in_mapi in Hi.
      destruct Hi as (k & x & Hk & E). injection E as -> -> ->. apply nth_error_some_lt in Hk. lia.
    + destruct He as (Hd & vals & rest & -> & Hv1 & Hv2). apply in_mapi in Hi.
      destruct Hi as (k & x & Hk & E). injection E as -> -> ->. lia.
Qed.

Section Run.
  Context {A : Type} {NA : NumOps A} {OL : OrdLaws A} {AL : AvgLaws A}.
  Notation num := (Np.num A).
  Notation sd := (@sd A).
  Notation md := (@md A).

  Lemma tr_qshift (es : list (event num)) : qshift (map tr es) = qshift es.
  Proof. induction es as [|e es IH]; [reflexivity|]. cbn [map qshift]. rewrite IH. destruct e; reflexivity. Qed.
  Lemma tr_sshift (es : list (event num)) : sshift (map tr es) = sshift es.
  Proof. induction es as [|e es IH]; [reflexivity|]. cbn [map sshift]. rewrite IH. destruct e; reflexivity. Qed.

  Variables D h w : nat.
  Hypothesis HD : 0 < D.
  Hypothesis Hw : 0 < w.

  Lemma axis0_chans (vs : list (list num)) : axis0 vs = chans vs.
  Proof. unfold axis0, chans. destruct vs; reflexivity. Qed.

  Section Cols.
    Variables (n : nat) (vs : list (list num)).
    Hypothesis HR : rect D n vs.

    Lemma hd_len : length (hd [] vs) = n.
    Proof. destruct HR as [HL HV]. destruct vs as [|v r]; [cbn in HL; lia|]. apply (HV v). left. reflexivity. Qed.
    Lemma chans_len : length (chans vs) = n.
    Proof. rewrite <- axis0_chans. unfold axis0. rewrite map_length, seq_length. apply hd_len. Qed.
    Lemma chans_nth p : p < n -> nth_error (chans vs) p = Some (chan vs p).
    Proof. intro Hp. rewrite <- axis0_chans. unfold axis0. rewrite nth_error_map, hd_len, nth_error_seq. destruct (Nat.ltb_spec p n); [reflexivity|lia]. Qed.
    Lemma chan_len p : length (chan vs p) = D.
    Proof. unfold chan. rewrite map_length. apply HR. Qed.
    Lemma chan_in p x : p < n -> In x (chan vs p) -> exists row, In row vs /\ In x row.
    Proof. intros Hp Hx. unfold chan in Hx. apply in_map_iff in Hx. destruct Hx as (row & <- & Hrow). exists row. split; [exact Hrow|]. apply nth_In. rewrite (proj1 (proj2 HR row Hrow)). exact Hp. Qed.
    Lemma chan_real p x : p < n -> In x (chan vs p) -> real x.
    Proof. intros Hp Hx. destruct (chan_in _ Hp Hx) as (row & Hr & Hxr). apply (proj2 (proj2 HR row Hr) x Hxr). Qed.
    Lemma chans_in col : In col (chans vs) -> exists p, p < n /\ col = chan vs p.
    Proof. intro H. apply In_nth_error in H. destruct H as [p Hp]. pose proof (nth_error_some_lt _ _ Hp) as Hl. rewrite chans_len in Hl. rewrite chans_nth in Hp by exact Hl. injection Hp as <-. eauto. Qed.

    Definition cumb (base : list num -> num) (k : nat) (col : list num) : num := fold_left fadd (firstn k (fsort col)) (base col).

    Lemma cumb_step base k : k < D -> zip_with fadd (map (cumb base k) (chans vs)) (sorted_row vs k) = map (cumb base (S k)) (chans vs).
    Proof.
      intro Hk. unfold sorted_row. rewrite axis0_chans. apply nth_error_ext. intro p. rewrite nth_error_zip_with, !nth_error_map.
      destruct (nth_error (chans vs) p) as [col|] eqn:E; [|reflexivity]. cbn [option_map]. f_equal. unfold cumb.
      assert (Lc : length (fsort col) = D).
      { rewrite fsort_length. apply nth_error_In, chans_in in E. destruct E as (q & _ & ->). apply chan_len. }
      rewrite <- (firstn_skipn k (firstn (S k) (fsort col))). rewrite firstn_firstn, Nat.min_l by lia. rewrite fold_left_app.
      rewrite skipn_firstn_comm. replace (S k - k) with 1 by lia.
      destruct (@nth_error_lt_some _ (fsort col) k) as [x Hx]; [lia|]. rewrite (nth_error_nth _ _ _ Hx).
      assert (Es : firstn 1 (skipn k (fsort col)) = [x]).
      { apply nth_error_ext. intros [|i]; rewrite nth_error_firstn, nth_error_skipn.
        - cbn [Nat.ltb Nat.leb nth_error]. rewrite Nat.add_0_r. exact Hx.
        - destruct (Nat.ltb_spec (S i) 1); [lia|]. destruct i; reflexivity. }
      rewrite Es. reflexivity.
    Qed.

    Lemma dim_loop_ok base body (P : nat -> sd * sd -> sd * sd -> Prop) lanes : length lanes = D ->
      (forall k lane, k < D -> nth_error lanes k = Some lane -> exists lane', P k lane lane' /\
         body k (map (fun col => fdivp (cumb base (S k) col) (nofZ (Z.of_nat k + 1))) (chans vs)) lane = Ok lane') ->
      exists lanes', dim_loop vs body (map (cumb base 0) (chans vs), lanes) = Ok (map (cumb base D) (chans vs), lanes') /\ length lanes' = D /\
        forall k lane, nth_error lanes k = Some lane -> exists lane', nth_error lanes' k = Some lane' /\ P k lane lane'.
    Proof.
      intros HL HB. unfold dim_loop. rewrite (proj1 HR), <- HL.
      match goal with |- exists _, foldM ?F _ _ = _ /\ _ => destruct (@lanes_loop _ _ F (fun k => map (cumb base k) (chans vs)) P lanes) as (lanes' & E & L' & G) end.
      - intros k ls lane Hk Hls Hlk. pose proof (nth_error_some_lt _ _ Hk) as Hlt. destruct (HB k lane) as (lane' & HP & EB); [lia|exact Hk|].
        exists lane'. split; [exact HP|]. cbn [fst snd]. rewrite cumb_step by lia. rewrite (proj2 (getitem_ok _ _ _) Hlk). cbn [bind].
        rewrite map_map, EB. cbn [bind]. rewrite setitem_ok by lia. reflexivity.
      - exists lanes'. rewrite E. auto.
    Qed.

    Lemma cum_cumb k col : cum k col = cumb (fun _ => Fin nzero) k col.
    Proof. reflexivity. Qed.
    Lemma zeros : repeat (Fin nzero) n = map (cumb (fun _ => Fin nzero) 0) (chans vs).
    Proof.
      apply nth_error_ext. intro p. rewrite nth_error_repeat', nth_error_map. destruct (Nat.ltb_spec p n).
      - rewrite chans_nth by assumption. reflexivity.
      - rewrite nth_error_none_ge by (rewrite chans_len; assumption). reflexivity.
    Qed.
  End Cols.

  Lemma fold_nonneg (rest : list num) : forall x, real x -> (forall y, In y rest -> real y /\ fltb y (Fin nzero) = false) ->
    fltb (fold_left fadd rest x) x = false.
  Proof.
    induction rest as [|y rest IH]; intros x Hx Hr; [apply fltb_irrefl|]. cbn [fold_left].
    destruct (Hr y (or_introl eq_refl)) as [Ry Py].
    eapply fltb_false_trans; [apply real_nan, (real_fadd Hx Ry)|apply IH; [apply real_fadd; assumption|intros; apply Hr; right; assumption]|].
    destruct Hx as [X1 X2], Ry as [Y1 Y2]. destruct x, y; cbn [fadd fltb] in *; try congruence. apply add_nonneg, Py.
  Qed.

  Lemma inflated vs n p k : rect D n vs -> p < n -> k < D -> (forall row x, In row vs -> In x row -> fltb x (Fin nzero) = false) ->
    let col := chan vs p in
    fltb (fdivp (cumb (cum D) (S k) col) (nofZ (Z.of_nat k + 1))) (avg k col) = false.
  Proof.
    intros HR Hp Hk Hn col.
    assert (Rc : forall x, In x (fsort col) -> real x /\ fltb x (Fin nzero) = false).
    { intros x Hx. apply (Permutation_in _ (Permutation_sym (fsort_perm col))) in Hx. split; [eapply chan_real; eauto|].
      destruct (chan_in HR _ Hp Hx) as (row & Hr & Hxr). eapply Hn; eassumption. }
    assert (RC : real (cum (k + 1) col)) by (apply real_cum; intros x Hx; eapply chan_real; eauto).
    assert (RD : real (cum D col)) by (apply real_cum; intros x Hx; eapply chan_real; eauto).
    assert (R2 : real (cumb (cum D) (S k) col)) by (apply real_fold; [exact RD|intros y Hy; apply in_firstn in Hy; apply Rc; exact Hy]).
    unfold avg. apply fdivp_mono; [|apply real_nan, R2|apply real_nan, RC].
    assert (E : cum D col = fold_left fadd (skipn (k + 1) (firstn D (fsort col))) (cum (k + 1) col)).
    { unfold cum. rewrite <- fold_left_app. f_equal. rewrite <- (firstn_skipn (k + 1) (firstn D (fsort col))) at 1. f_equal. rewrite firstn_firstn, Nat.min_l by lia. reflexivity. }
    unfold cumb. eapply fltb_false_trans; [apply real_nan, RD| |].
    - apply fold_nonneg; [exact RD|]. intros y Hy. apply Rc. apply in_firstn in Hy. exact Hy.
    - rewrite E. apply fold_nonneg; [exact RC|]. intros y Hy. apply Rc. 
      apply (in_firstn D). rewrite <- (firstn_skipn (k + 1) (firstn D (fsort col))). apply in_or_app. right. exact Hy.
  Qed.

  (** ** Invariant *)
  Definition side_inv (L : list (cell (list num))) (ss : Z) (P : Z -> Z -> bool) (k : nat) (s : sd) : Prop :=
    sd_ok w s /\ forall c, c < w -> exists x, sent s c x /\ mdb L (P (ss + Z.of_nat c)%Z) (ss + Z.of_nat c) k x.

  Definition md_inv (es : list (event num)) (s : md) : Prop :=
    md_ndim s = D /\ full_rb w (md_range s) /\ rb_view (md_range s) = arange (qshift es) w /\
    md_ss s = sshift es /\ md_qs s = qshift es /\ length (md_lanes s) = D /\
    forall k lane, nth_error (md_lanes s) k = Some lane ->
      side_inv (mlog es) (sshift es) is_left k (fst lane) /\ side_inv (mlog es) (sshift es) is_right k (snd lane).

  Lemma side_none L N ss P k s : (forall r c vals, In (r, c, vals) N -> P c r = true -> (c < ss \/ ss + Z.of_nat w <= c)%Z) ->
    side_inv L ss P k s -> side_inv (L ++ N) ss P k s.
  Proof.
    intros HN [Hok HB]. split; [exact Hok|]. intros c Hc. destruct (HB c Hc) as (x & Hx & Hb). exists x. split; [exact Hx|].
    apply mdb_step with (x := x); [exact Hb|left; reflexivity|]. intros r vals Hi HP. exfalso. specialize (HN r _ vals Hi HP). lia.
  Qed.

  Lemma side_same L ss P k s s' : sd_ok w s' -> (forall c x, c < w -> sent s c x -> sent s' c x) -> side_inv L ss P k s -> side_inv L ss P k s'.
  Proof. intros Hok Hs [_ HB]. split; [exact Hok|]. intros c Hc. destruct (HB c Hc) as (x & Hx & Hb). exists x. auto. Qed.

  (** A diagonal on one side *)
  Lemma side_diag argsort L qs ss P k s n vs d : argsorts argsort -> rect D n vs -> k < D ->
    let lo := Z.to_nat d in let dn := Z.to_nat (- d) in
    dn + n <= w -> lo + n <= w ->
    (forall p, p < n -> P (ss + Z.of_nat (lo + p))%Z (qs + Z.of_nat (dn + p))%Z = true) ->
    side_inv L ss P k s ->
    exists s', sd_update (map (fun col => fdivp (cumb (fun _ => Fin nzero) (S k) col) (nofZ (Z.of_nat k + 1))) (chans vs))
        (lslice (arange qs w) dn (dn + n)) (sort_order argsort vs k) s lo (lo + n) = Ok s' /\
      side_inv (L ++ diag_cells qs ss d (chans vs)) ss P k s'.
  Proof.
    intros Ha HR Hk lo dn H1 H2 HP [Hok HB].
    assert (Hmean : map (fun col => fdivp (cumb (fun _ => Fin nzero) (S k) col) (nofZ (Z.of_nat k + 1))) (chans vs) = map (avg k) (chans vs)).
    { apply map_ext. intro col. unfold avg. rewrite Nat.add_1_r. reflexivity. }
    rewrite Hmean.
    destruct (@sd_update_ok A NA w s (map (avg k) (chans vs)) (lslice (arange qs w) dn (dn + n)) (sort_order argsort vs k) lo n Hok) as (s' & E & Hok' & G).
    { rewrite map_length. apply chans_len, HR. }
    { rewrite length_lslice, length_arange. lia. }
    { unfold sort_order. rewrite map_length, axis0_chans. apply chans_len, HR. }
    { exact H2. }
    exists s'. split; [exact E|]. split; [exact Hok'|]. intros c Hc. destruct (HB c Hc) as (x & Hx & Hb).
    assert (HN : forall r vals, In (r, (ss + Z.of_nat c)%Z, vals) (diag_cells qs ss d (chans vs)) <->
              exists p, p < n /\ c = lo + p /\ r = (qs + Z.of_nat (dn + p))%Z /\ vals = chan vs p).
    { intros r vals. unfold diag_cells. rewrite in_mapi. split.
      - intros (p & y & Hp & Ee). injection Ee as E1 E2 E3. subst y. pose proof (nth_error_some_lt _ _ Hp) as Hl. rewrite (chans_len HR) in Hl.
        rewrite (chans_nth HR) in Hp by exact Hl. injection Hp as <-. exists p. split; [exact Hl|]. split; [subst lo; lia|]. split; [subst dn; lia|reflexivity].
      - intros (p & Hp & -> & -> & ->). exists p, (chan vs p). split; [apply (chans_nth HR); exact Hp|]. f_equal; f_equal; subst lo dn; lia. }
    destruct (G c x Hx) as [(dd & i & m & Hlo & Hd & Hi & Hm & Hlt & Hs')|[Hge Hs']].
    - exists (dd, i, m). split; [exact Hs'|]. set (p := c - lo) in *.
      rewrite nth_error_map in Hd. destruct (nth_error (chans vs) p) as [col|] eqn:Ecol; [|discriminate]. injection Hd as <-.
      pose proof (nth_error_some_lt _ _ Ecol) as Hpn. rewrite (chans_len HR) in Hpn. rewrite (chans_nth HR) in Ecol by exact Hpn. injection Ecol as <-.
      assert (Ei : i = (qs + Z.of_nat (dn + p))%Z).
      { rewrite nth_error_lslice in Hi. destruct (p <? dn + n - dn); [|discriminate]. rewrite nth_error_arange in Hi. destruct (dn + p <? w); [|discriminate]. injection Hi as <-. reflexivity. }
      assert (Em : m = map Z.of_nat (firstn (k + 1) (argsort (chan vs p)))).
      { unfold sort_order in Hm. rewrite axis0_chans, nth_error_map, (chans_nth HR) in Hm by exact Hpn. injection Hm as <-. reflexivity. }
      apply mdb_step with (x := x); [exact Hb| |]; cbn [fst snd].
      + right. split; [exact Hlt|]. split; [subst i; replace c with (lo + p) by (subst p; lia); apply HP, Hpn|].
        exists (chan vs p). split; [apply HN; exists p; split; [exact Hpn|]; split; [subst p; lia|]; split; [exact Ei|reflexivity]|].
        rewrite Em. apply argsort_k_best; [exact Ha| |rewrite (chan_len HR); exact Hk]. intros y Hy. apply real_nan. eapply (chan_real HR); eassumption.
      + intros r vals Hin _. apply HN in Hin. destruct Hin as (p' & Hp' & Hc' & -> & ->). replace p' with p by (subst p; lia). apply fltb_irrefl.
    - exists x. split; [exact Hs'|]. apply mdb_step with (x := x); [exact Hb|left; reflexivity|].
      intros r vals Hin _. apply HN in Hin. destruct Hin as (p' & Hp' & -> & -> & ->). apply Hge; [lia|].
      replace (lo + p' - lo) with p' by lia. rewrite nth_error_map, (chans_nth HR) by exact Hp'. reflexivity.
  Qed.

  (** The second pass over the same diagonal changes nothing *)
  Lemma side_second argsort L qs ss P k s n vs d : rect D n vs -> k < D ->
    (forall row x, In row vs -> In x row -> fltb x (Fin nzero) = false) ->
    let lo := Z.to_nat d in let dn := Z.to_nat (- d) in
    dn + n <= w -> lo + n <= w ->
    (forall p, p < n -> P (ss + Z.of_nat (lo + p))%Z (qs + Z.of_nat (dn + p))%Z = true) ->
    side_inv (L ++ diag_cells qs ss d (chans vs)) ss P k s ->
    exists s', sd_update (map (fun col => fdivp (cumb (cum D) (S k) col) (nofZ (Z.of_nat k + 1))) (chans vs))
        (lslice (arange qs w) dn (dn + n)) (sort_order argsort vs k) s lo (lo + n) = Ok s' /\
      side_inv (L ++ diag_cells qs ss d (chans vs)) ss P k s'.
  Proof.
    intros HR Hk Hnn lo dn H1 H2 HP HI. pose proof HI as [Hok HB].
    destruct (@sd_update_ok A NA w s (map (fun col => fdivp (cumb (cum D) (S k) col) (nofZ (Z.of_nat k + 1))) (chans vs))
       (lslice (arange qs w) dn (dn + n)) (sort_order argsort vs k) lo n Hok) as (s' & E & Hok' & G).
    { rewrite map_length. apply chans_len, HR. }
    { rewrite length_lslice, length_arange. lia. }
    { unfold sort_order. rewrite map_length, axis0_chans. apply chans_len, HR. }
    { exact H2. }
    exists s'. split; [exact E|]. apply side_same with (s := s); [exact Hok'| |exact HI].
    intros c x Hc Hx. destruct (G c x Hx) as [(dd & i & m & Hlo & Hd & Hi & Hm & Hlt & Hs')|[_ Hs']]; [exfalso|exact Hs'].
    set (p := c - lo) in *. rewrite nth_error_map in Hd. destruct (nth_error (chans vs) p) as [col|] eqn:Ecol; [|discriminate]. injection Hd as <-.
    pose proof (nth_error_some_lt _ _ Ecol) as Hpn. rewrite (chans_len HR) in Hpn. pose proof Ecol as Ecol2. rewrite (chans_nth HR) in Ecol by exact Hpn. injection Ecol as <-.
    destruct (HB c Hc) as (x' & Hx' & Hb). rewrite (sent_fun Hx' Hx) in Hb.
    assert (Hav : fltb (avg k (chan vs p)) (fst (fst x)) = false).
    { assert (X : forall r vals, In (r, (ss + Z.of_nat c)%Z, vals) (L ++ diag_cells qs ss d (chans vs)) -> P (ss + Z.of_nat c)%Z r = true -> fltb (avg k vals) (fst (fst x)) = false).
      { destruct Hb as [[-> Hb]|(_ & _ & _ & Hb)]; exact Hb. }
      apply (X (qs + Z.of_nat (dn + p))%Z).
      - apply in_or_app. right. unfold diag_cells. apply in_mapi. exists p, (chan vs p). split; [exact Ecol2|]. f_equal; f_equal; subst lo dn p; lia.
      - replace c with (lo + p) by (subst p; lia). apply HP, Hpn. }
    assert (Hinf := @inflated vs n p k HR Hpn Hk Hnn). cbv zeta in Hinf.
    assert (X : fltb (fdivp (cumb (cum D) (S k) (chan vs p)) (nofZ (Z.of_nat k + 1))) (fst (fst x)) = false); [|congruence].
    eapply fltb_false_trans; [|exact Hinf|exact Hav]. apply real_nan, real_avg. intros y Hy. eapply chan_real; eauto.
  Qed.

  Lemma md_diag_ok argsort es s d vs : argsorts argsort -> md_inv es s -> mfits D h w (EDiag d vs) -> nonneg (EDiag d vs) ->
    ((0 <= d)%Z <-> (0 <= d + (sshift es - qshift es))%Z) -> Z.to_nat (- d) + length (hd [] vs) <= w ->
    exists s', md_diag argsort s d vs = Ok s' /\ md_inv (es ++ [EDiag d vs]) s'.
  Proof.
    intros Ha (I1 & I2 & I3 & I4 & I5 & I6 & I7) (Hd & n & HR & Hn1 & Hn2) Hnn Hiff Hrow. cbn [nonneg] in Hnn.
    rewrite (hd_len HR) in Hrow. unfold md_diag. rewrite (hd_len HR), I3, I4, I5, (zeros HR).
    set (lo := Z.to_nat d) in *. set (dn := Z.to_nat (- d)) in *. set (qs := qshift es) in *. set (ss := sshift es) in *.
    set (N := diag_cells qs ss d (chans vs)).
    assert (Hlog : mlog (es ++ [EDiag d vs]) = mlog es ++ N).
    { unfold mlog. rewrite map_app; cbn [map]; rewrite log_snoc, tr_qshift, tr_sshift. reflexivity. }
    assert (HNc : forall r c vals, In (r, c, vals) N -> exists p, p < n /\ r = (qs + Z.of_nat (dn + p))%Z /\ c = (ss + Z.of_nat (lo + p))%Z).
    { intros r c vals Hi. unfold N, diag_cells in Hi. apply in_mapi in Hi. destruct Hi as (p & y & Hp & Ee). injection Ee as E1 E2 E3.
      pose proof (nth_error_some_lt _ _ Hp) as Hl. rewrite (chans_len HR) in Hl. exists p. split; [exact Hl|]. subst lo dn. lia. }
    destruct (Z.leb_spec 0 d) as [Hpos|Hneg].
    - destruct (Z.leb_spec 0 (d + (ss - qs))) as [_|]; [|exfalso; apply Hiff in Hpos; lia].
      assert (Edn : dn = 0) by (subst dn; lia).
      assert (HPl : forall p, p < n -> is_left (ss + Z.of_nat (lo + p))%Z (qs + Z.of_nat (dn + p))%Z = true).
      { intros p Hp. unfold is_left. apply Z.leb_le. apply Hiff in Hpos. subst lo. lia. }
      set (P1 := fun k (la la' : sd * sd) => snd la' = snd la /\ side_inv (mlog es ++ N) ss is_left k (fst la')).
      destruct (@dim_loop_ok n vs HR (fun _ => Fin nzero) (fun dim mean lane => on_left lane (fun x => sd_update mean (lslice (arange qs w) 0 n) (sort_order argsort vs dim) x lo (lo + n))) P1 (md_lanes s) I6) as (l1 & E1 & L1 & G1).
      { intros k lane Hk Hl. destruct (I7 k lane Hl) as [SL SR].
        destruct (@side_diag argsort (mlog es) qs ss is_left k (fst lane) n vs d Ha HR Hk) as (x' & E & HS); [fold dn; exact Hrow|exact Hn2|exact HPl|exact SL|].
        fold dn lo in E. rewrite Edn in E. cbn [Nat.add] in E. exists (x', snd lane). split; [split; [reflexivity|exact HS]|].
        unfold on_left. rewrite E. reflexivity. }
      rewrite E1. cbn [bind].
      destruct (@dim_loop_ok n vs HR (cum D) (fun dim mean lane => on_left lane (fun x => sd_update mean (lslice (arange qs w) 0 n) (sort_order argsort vs dim) x lo (lo + n))) P1 l1 L1) as (l2 & E2 & L2 & G2).
      { intros k lane Hk Hl. destruct (@nth_error_lt_some _ (md_lanes s) k) as [lane0 Hl0]; [lia|]. destruct (G1 k lane0 Hl0) as (lane1 & Hl1 & HP1). assert (lane1 = lane) by congruence. subst lane1.
        destruct HP1 as [Hsnd HSL].
        destruct (@side_second argsort (mlog es) qs ss is_left k (fst lane) n vs d HR Hk Hnn) as (x' & E & HS); [fold dn; exact Hrow|exact Hn2|exact HPl|exact HSL|].
        fold dn lo in E. rewrite Edn in E. cbn [Nat.add] in E. exists (x', snd lane). split; [split; [reflexivity|exact HS]|].
        unfold on_left. rewrite E. reflexivity. }
      change (map (cumb (fun _ => Fin nzero) D) (chans vs)) with (map (cumb (cum D) 0) (chans vs)). rewrite E2. cbn [bind snd].
      eexists. split; [reflexivity|]. unfold md_inv. cbn [md_ndim md_range md_ss md_qs md_lanes]. rewrite qshift_app, sshift_app. cbn [qshift sshift event_qshift event_sshift]. rewrite !Z.add_0_r. fold qs ss.
      do 6 (split; [assumption || reflexivity|]). rewrite Hlog. intros k lane2 Hl2.
      assert (Hk : k < D) by (rewrite <- L2; eapply nth_error_some_lt; exact Hl2).
      destruct (@nth_error_lt_some _ (md_lanes s) k) as [lane0 Hl0]; [lia|]. destruct (G1 k lane0 Hl0) as (lane1 & Hl1 & [Hs1 _]).
      destruct (G2 k lane1 Hl1) as (lane2' & Hl2' & [Hs2 HS2]). assert (lane2' = lane2) by congruence. subst lane2'. split; [exact HS2|].
      rewrite Hs2, Hs1. apply side_none; [|apply (I7 k lane0 Hl0)]. intros r c vals Hi HP. exfalso. destruct (HNc _ _ _ Hi) as (p & Hp & -> & ->).
      specialize (HPl p Hp). unfold is_left in HPl. unfold is_right in HP. rewrite HPl in HP. discriminate.
    - destruct (Z.leb_spec 0 (d + (ss - qs))) as [Hc|_]; [exfalso; apply Hiff in Hc; lia|].
      assert (Elo : lo = 0) by (subst lo; lia).
      assert (HPl : forall p, p < n -> is_right (ss + Z.of_nat (lo + p))%Z (qs + Z.of_nat (dn + p))%Z = true).
      { intros p Hp. unfold is_right. apply negb_true_iff, Z.leb_gt. assert (~ (0 <= d + (ss - qs))%Z) by (intro Hc; apply Hiff in Hc; lia). subst dn. lia. }
      set (P1 := fun k (la la' : sd * sd) => fst la' = fst la /\ side_inv (mlog es ++ N) ss is_right k (snd la')).
      destruct (@dim_loop_ok n vs HR (fun _ => Fin nzero) (fun dim mean lane => on_right lane (fun x => sd_update mean (lslice (arange qs w) dn (dn + n)) (sort_order argsort vs dim) x 0 n)) P1 (md_lanes s) I6) as (l1 & E1 & L1 & G1).
      { intros k lane Hk Hl. destruct (I7 k lane Hl) as [SL SR].
        destruct (@side_diag argsort (mlog es) qs ss is_right k (snd lane) n vs d Ha HR Hk) as (x' & E & HS); [fold dn; exact Hrow|exact Hn2|exact HPl|exact SR|].
        fold dn lo in E. rewrite Elo in E. cbn [Nat.add] in E. exists (fst lane, x'). split; [split; [reflexivity|exact HS]|].
        unfold on_right. rewrite E. reflexivity. }
      rewrite E1. cbn [bind].
      destruct (@dim_loop_ok n vs HR (cum D) (fun dim mean lane => on_right lane (fun x => sd_update mean (lslice (arange qs w) dn (dn + n)) (sort_order argsort vs dim) x 0 n)) P1 l1 L1) as (l2 & E2 & L2 & G2).
      { intros k lane Hk Hl. destruct (@nth_error_lt_some _ (md_lanes s) k) as [lane0 Hl0]; [lia|]. destruct (G1 k lane0 Hl0) as (lane1 & Hl1 & HP1). assert (lane1 = lane) by congruence. subst lane1.
        destruct HP1 as [Hsnd HSL].
        destruct (@side_second argsort (mlog es) qs ss is_right k (snd lane) n vs d HR Hk Hnn) as (x' & E & HS); [fold dn; exact Hrow|exact Hn2|exact HPl|exact HSL|].
        fold dn lo in E. rewrite Elo in E. cbn [Nat.add] in E. exists (fst lane, x'). split; [split; [reflexivity|exact HS]|].
        unfold on_right. rewrite E. reflexivity. }
      change (map (cumb (fun _ => Fin nzero) D) (chans vs)) with (map (cumb (cum D) 0) (chans vs)). rewrite E2. cbn [bind snd].
      eexists. split; [reflexivity|]. unfold md_inv. cbn [md_ndim md_range md_ss md_qs md_lanes]. rewrite qshift_app, sshift_app. cbn [qshift sshift event_qshift event_sshift]. rewrite !Z.add_0_r. fold qs ss.
      do 6 (split; [assumption || reflexivity|]). rewrite Hlog. intros k lane2 Hl2.
      assert (Hk : k < D) by (rewrite <- L2; eapply nth_error_some_lt; exact Hl2).
      destruct (@nth_error_lt_some _ (md_lanes s) k) as [lane0 Hl0]; [lia|]. destruct (G1 k lane0 Hl0) as (lane1 & Hl1 & [Hs1 _]).
      destruct (G2 k lane1 Hl1) as (lane2' & Hl2' & [Hs2 HS2]). assert (lane2' = lane2) by congruence. subst lane2'. split; [|exact HS2].
      rewrite Hs2, Hs1. apply side_none; [|apply (I7 k lane0 Hl0)]. intros r c vals Hi HP. exfalso. destruct (HNc _ _ _ Hi) as (p & Hp & -> & ->).
      specialize (HPl p Hp). unfold is_left in HP. unfold is_right in HPl. rewrite HP in HPl. discriminate.
  Qed.

  (** A column on one side *)
  Lemma side_put argsort L qs ss P k s n vs c p0 : argsorts argsort -> rect D n vs -> k < D -> c < w -> p0 < n ->
    P (ss + Z.of_nat c)%Z (qs + Z.of_nat p0)%Z = true ->
    (forall p, p < n -> P (ss + Z.of_nat c)%Z (qs + Z.of_nat p)%Z = true -> fltb (cum (S k) (chan vs p)) (cum (S k) (chan vs p0)) = false) ->
    side_inv L ss P k s ->
    exists s', sd_put c (fdivp (cum (S k) (chan vs p0)) (nofZ (Z.of_nat k + 1))) (Z.of_nat p0 + qs)
        (map Z.of_nat (firstn (k + 1) (argsort (chan vs p0)))) s = Ok s' /\ side_inv (L ++ col_cells qs ss c (chans vs)) ss P k s'.
  Proof.
    intros Ha HR Hk Hc Hp0 HP0 Hmin [Hok HB].
    assert (Ev : fdivp (cum (S k) (chan vs p0)) (nofZ (Z.of_nat k + 1)) = avg k (chan vs p0)) by (unfold avg; rewrite Nat.add_1_r; reflexivity).
    rewrite Ev. destruct (@sd_put_ok A NA w s c (avg k (chan vs p0)) (Z.of_nat p0 + qs) (map Z.of_nat (firstn (k + 1) (argsort (chan vs p0)))) Hok Hc) as (s' & E & Hok' & G).
    exists s'. split; [exact E|]. split; [exact Hok'|]. intros c' Hc'. destruct (HB c' Hc') as (x & Hx & Hb).
    assert (HN : forall r vals, In (r, (ss + Z.of_nat c')%Z, vals) (col_cells qs ss c (chans vs)) <->
              exists p, p < n /\ c' = c /\ r = (qs + Z.of_nat p)%Z /\ vals = chan vs p).
    { intros r vals. unfold col_cells. rewrite in_mapi. split.
      - intros (p & y & Hp & Ee). injection Ee as E1 E2 E3. subst y. pose proof (nth_error_some_lt _ _ Hp) as Hl. rewrite (chans_len HR) in Hl.
        rewrite (chans_nth HR) in Hp by exact Hl. injection Hp as <-. exists p. split; [exact Hl|]. split; [lia|]. split; [lia|reflexivity].
      - intros (p & Hp & -> & -> & ->). exists p, (chan vs p). split; [apply (chans_nth HR); exact Hp|reflexivity]. }
    assert (Rr : forall p, p < n -> real (cum (S k) (chan vs p))) by (intros p Hp; apply real_cum; intros y Hy; eapply chan_real; eauto).
    assert (Hmin' : forall p, p < n -> P (ss + Z.of_nat c)%Z (qs + Z.of_nat p)%Z = true -> fltb (avg k (chan vs p)) (avg k (chan vs p0)) = false).
    { intros p Hp HPp. unfold avg. rewrite Nat.add_1_r. apply fdivp_mono; [apply Hmin; assumption|apply real_nan, Rr; assumption|apply real_nan, Rr; assumption]. }
    destruct (G c' x Hx) as [(-> & Hlt & Hs')|[Hno Hs']].
    - eexists. split; [exact Hs'|]. apply mdb_step with (x := x); [exact Hb| |]; cbn [fst snd].
      + right. split; [exact Hlt|]. rewrite (Z.add_comm (Z.of_nat p0)). split; [exact HP0|]. exists (chan vs p0). split; [apply HN; exists p0; auto|].
        apply argsort_k_best; [exact Ha| |rewrite (chan_len HR); exact Hk]. intros y Hy. apply real_nan. eapply (chan_real HR); eassumption.
      + intros r vals Hin HPr. apply HN in Hin. destruct Hin as (p & Hp & _ & -> & ->). apply Hmin'; assumption.
    - exists x. split; [exact Hs'|]. apply mdb_step with (x := x); [exact Hb|left; reflexivity|].
      intros r vals Hin HPr. apply HN in Hin. destruct Hin as (p & Hp & -> & -> & ->).
      eapply fltb_false_trans; [apply real_nan, real_avg; intros y Hy; eapply (chan_real HR _ Hp0 Hy)|apply Hmin'; assumption|].
      destruct (fltb (avg k (chan vs p0)) (fst (fst x))) eqn:El; [exfalso; apply Hno; auto|reflexivity].
  Qed.

  Lemma md_col_ok argsort es s c vs : argsorts argsort -> md_inv es s -> mfits D h w (ECol c vs) ->
    exists s', md_col argsort s c vs = Ok s' /\ md_inv (es ++ [ECol c vs]) s'.
  Proof.
    intros Ha (I1 & I2 & I3 & I4 & I5 & I6 & I7) (Hc & n & HR & Hn0 & Hnh).
    unfold md_col. rewrite (hd_len HR), I4, I5, (zeros HR).
    set (qs := qshift es) in *. set (ss := sshift es) in *. set (N := col_cells qs ss c (chans vs)).
    set (border := Z.to_nat (Z.max 0 (Z.of_nat c + 1 + (ss - qs)))).
    assert (Hlog : mlog (es ++ [ECol c vs]) = mlog es ++ N).
    { unfold mlog. rewrite map_app; cbn [map]; rewrite log_snoc, tr_qshift, tr_sshift. reflexivity. }
    assert (HNc : forall r a vals, In (r, a, vals) N -> exists p, p < n /\ r = (qs + Z.of_nat p)%Z /\ a = (ss + Z.of_nat c)%Z).
    { intros r a vals Hi. unfold N, col_cells in Hi. apply in_mapi in Hi. destruct Hi as (p & y & Hp & Ee). injection Ee as E1 E2 E3.
      pose proof (nth_error_some_lt _ _ Hp) as Hl. rewrite (chans_len HR) in Hl. exists p. split; [exact Hl|]. lia. }
    assert (HPl : forall p, is_left (ss + Z.of_nat c)%Z (qs + Z.of_nat p)%Z = (p <? border)).
    { intro p. unfold is_left. destruct (Z.leb_spec (qs + Z.of_nat p) (ss + Z.of_nat c)), (Nat.ltb_spec p border); try reflexivity; subst border; lia. }
    assert (HPr : forall p, is_right (ss + Z.of_nat c)%Z (qs + Z.of_nat p)%Z = negb (p <? border)).
    { intro p. unfold is_right. fold (is_left (ss + Z.of_nat c)%Z (qs + Z.of_nat p)%Z). rewrite HPl. reflexivity. }
    clearbody border.
    set (P1 := fun k (la la' : sd * sd) => side_inv (mlog es ++ N) ss is_left k (fst la') /\ side_inv (mlog es ++ N) ss is_right k (snd la')).
    match goal with |- context [foldM ?F _ _] => destruct (@lanes_loop _ _ F (fun k => map (cumb (fun _ => Fin nzero) k) (chans vs)) P1 (md_lanes s)) as (l1 & E1 & L1 & G1) end.
    { intros k ls lane Hk0 Hls Hlk. assert (Hk : k < D) by (rewrite <- I6; eapply nth_error_some_lt; exact Hk0). destruct (I7 k lane Hk0) as [SL SR].
      cbn [fst snd]. rewrite (cumb_step HR) by exact Hk. rewrite (proj2 (getitem_ok _ _ _) Hlk). cbn [bind].
      set (cs := map (cumb (fun _ => Fin nzero) (S k)) (chans vs)).
      assert (Lcs : length cs = n) by (unfold cs; rewrite map_length; apply chans_len, HR).
      assert (Ncs : forall p, p < n -> nth_error cs p = Some (cum (S k) (chan vs p))) by (intros p Hp; unfold cs; rewrite nth_error_map, (chans_nth HR) by exact Hp; reflexivity).
      assert (Nn : forall p x, nth_error cs p = Some x -> isnan x = false).
      { intros p x Hx. pose proof (nth_error_some_lt _ _ Hx) as Hl. rewrite Lcs in Hl. rewrite Ncs in Hx by exact Hl. injection Hx as <-. apply real_nan, real_cum. intros y Hy. eapply chan_real; eauto. }
      assert (HL : exists l', (if 0 <? border then
                 do p <- argmin (firstn border cs);
                 do m <- getitem cs p;
                 sd_put c (fdivp m (nofZ (Z.of_nat k + 1))) (Z.of_nat p + qs)
                   (map Z.of_nat (firstn (k + 1) (argsort (map (fun row => nth p row NaN) vs)))) (fst lane)
               else Ok (fst lane)) = Ok l' /\ side_inv (mlog es ++ N) ss is_left k l').
      { destruct (Nat.ltb_spec 0 border) as [Hb|Hb].
        - destruct (@amin_argmin _ _ _ (firstn border cs)) as (p & v & Em & _ & Hv & Hmin & _).
          + intro E. apply (f_equal (@length _)) in E. rewrite firstn_length in E. cbn [length] in E. lia.
          + intros x Hx. apply In_nth_error in Hx. destruct Hx as [p Hp]. rewrite nth_error_firstn in Hp. destruct (p <? border); [|discriminate]. eapply Nn; exact Hp.
          + rewrite Em. cbn [bind]. rewrite nth_error_firstn in Hv. destruct (Nat.ltb_spec p border); [|discriminate].
            pose proof (nth_error_some_lt _ _ Hv) as Hp. rewrite Lcs in Hp. rewrite (proj2 (getitem_ok _ _ _) (Ncs p Hp)). cbn [bind].
            rewrite Ncs in Hv by exact Hp. injection Hv as <-.
            apply (@side_put argsort (mlog es) qs ss is_left k (fst lane) n vs c p Ha HR Hk Hc Hp); [rewrite HPl; apply Nat.ltb_lt; assumption| |exact SL].
            intros p' Hp' HP'. rewrite HPl in HP'. apply (Hmin p'). rewrite nth_error_firstn, HP'. apply Ncs, Hp'.
        - exists (fst lane). split; [reflexivity|]. apply side_none; [|exact SL]. intros r a vals Hi HP. exfalso. destruct (HNc _ _ _ Hi) as (p & Hp & -> & ->).
          rewrite HPl in HP. apply Nat.ltb_lt in HP. lia. }
      destruct HL as (l' & -> & HSL). cbn [bind].
      assert (HRr : exists r', (if border <? n then
                 do p0 <- argmin (skipn border cs);
                 do m <- getitem cs (p0 + border);
                 sd_put c (fdivp m (nofZ (Z.of_nat k + 1))) (Z.of_nat (p0 + border) + qs)
                   (map Z.of_nat (firstn (k + 1) (argsort (map (fun row => nth (p0 + border) row NaN) vs)))) (snd lane)
               else Ok (snd lane)) = Ok r' /\ side_inv (mlog es ++ N) ss is_right k r').
      { destruct (Nat.ltb_spec border n) as [Hb|Hb].
        - destruct (@amin_argmin _ _ _ (skipn border cs)) as (p0 & v & Em & _ & Hv & Hmin & _).
          + intro E. apply (f_equal (@length _)) in E. rewrite skipn_length in E. cbn [length] in E. lia.
          + intros x Hx. apply In_nth_error in Hx. destruct Hx as [p Hp]. rewrite nth_error_skipn in Hp. eapply Nn; exact Hp.
          + rewrite Em. cbn [bind]. rewrite nth_error_skipn in Hv. rewrite (Nat.add_comm border) in Hv. set (p := p0 + border) in *.
            pose proof (nth_error_some_lt _ _ Hv) as Hp. rewrite Lcs in Hp. rewrite (proj2 (getitem_ok _ _ _) (Ncs p Hp)). cbn [bind].
            rewrite Ncs in Hv by exact Hp. injection Hv as <-.
            apply (@side_put argsort (mlog es) qs ss is_right k (snd lane) n vs c p Ha HR Hk Hc Hp); [rewrite HPr; apply negb_true_iff, Nat.ltb_ge; subst p; lia| |exact SR].
            intros p' Hp' HP'. rewrite HPr in HP'. apply negb_true_iff, Nat.ltb_ge in HP'. apply (Hmin (p' - border)). rewrite nth_error_skipn.
            replace (border + (p' - border)) with p' by lia. apply Ncs, Hp'.
        - exists (snd lane). split; [reflexivity|]. apply side_none; [|exact SR]. intros r a vals Hi HP. exfalso. destruct (HNc _ _ _ Hi) as (p & Hp & -> & ->).
          rewrite HPr in HP. apply negb_true_iff, Nat.ltb_ge in HP. lia. }
      destruct HRr as (r' & -> & HSR). cbn [bind]. rewrite setitem_ok by (rewrite Hls, I6; exact Hk). cbn [bind].
      exists (l', r'). split; [split; [exact HSL|exact HSR]|reflexivity]. }
    rewrite (proj1 HR), <- I6. rewrite E1. cbn [bind snd]. eexists. split; [reflexivity|].
    unfold md_inv. cbn [md_ndim md_range md_ss md_qs md_lanes]. rewrite qshift_app, sshift_app. cbn [qshift sshift event_qshift event_sshift]. rewrite !Z.add_0_r. fold qs ss.
    do 5 (split; [assumption || reflexivity|]). split; [congruence|]. rewrite Hlog. intros k lane1 Hl1.
    destruct (@nth_error_lt_some _ (md_lanes s) k) as [lane0 Hl0]; [rewrite <- L1; eapply nth_error_some_lt; exact Hl1|].
    destruct (G1 k lane0 Hl0) as (lane1' & Hl1' & HP1). assert (lane1' = lane1) by congruence. subst lane1'. exact HP1.
  Qed.

  Lemma md_shiftq_ok es s n : md_inv es s -> exists s', md_shift_query s n = Ok s' /\ md_inv (es ++ [EShiftQ n]) s'.
  Proof.
    intros (I1 & I2 & I3 & I4 & I5 & I6 & I7). unfold md_shift_query. unfold md_inv. rewrite qshift_app, sshift_app. cbn [qshift sshift event_qshift event_sshift]. rewrite !Z.add_0_r.
    assert (Hlog : mlog (es ++ [EShiftQ n]) = mlog es).
    { unfold mlog. rewrite map_app; cbn [map]; rewrite log_snoc. cbn [map tr event_cells]. apply app_nil_r. }
    rewrite Hlog. destruct (Nat.eqb_spec n 0) as [->|Hn].
    - rewrite Z.add_0_r. exists s. split; [reflexivity|]. auto 10.
    - assert (El : pyget (rb_view (md_range s)) (-1) = Ok (qshift es + Z.of_nat w - 1)%Z).
      { rewrite I3. unfold pyget. rewrite length_arange. destruct (Z.ltb_spec (-1) (- Z.of_nat w)); [lia|]. destruct (Z.leb_spec (Z.of_nat w) (-1)); [lia|]. cbn [orb].
        apply getitem_ok. cbn [Z.ltb Z.compare]. rewrite nth_error_arange. destruct (Nat.ltb_spec (Z.to_nat (-1 + Z.of_nat w)) w); [f_equal; lia|lia]. }
      rewrite El. cbn [bind]. destruct (@full_push _ w (md_range s) (arange (qshift es + Z.of_nat w - 1 + 1) n) Hw I2) as (b' & E & F' & V'). rewrite E. cbn [bind fst].
      eexists. split; [reflexivity|]. cbn [md_ndim md_range md_ss md_qs md_lanes]. split; [exact I1|]. split; [exact F'|]. split; [|split; [exact I4|split; [lia|split; [exact I6|exact I7]]]].
      rewrite V', I3. replace (qshift es + Z.of_nat w - 1 + 1)%Z with (qshift es + Z.of_nat w)%Z by lia. apply arange_push, Hw.
  Qed.

  Lemma mfits_fits (es : list (event num)) : Forall (mfits D h w) es -> Forall (fits h w) (map tr es).
  Proof.
    induction 1 as [|e es He _ IH]; [constructor|]. cbn [map]. constructor; [|exact IH]. destruct e as [d vs|c vs|n|n]; cbn [tr fits mfits] in *; auto.
    - destruct He as (Hd & n & HR & H1 & H2). split; [exact Hd|]. exists (chans vs), []. rewrite (chans_len HR). split; [reflexivity|]. lia.
    - destruct He as (Hd & n & HR & H1 & H2). split; [exact Hd|]. exists (chans vs), []. rewrite (chans_len HR). split; [reflexivity|]. lia.
  Qed.

  Lemma side_push es ss n P k s s' : (forall r c vals, In (r, c, vals) es -> (c < ss + Z.of_nat w)%Z) ->
    sd_ok w s' -> (forall c, c < w -> (c + n < w -> forall x, sent s (c + n) x -> sent s' c x) /\ (w <= c + n -> sent s' c (PInf, (-1)%Z, repeat (-1)%Z (k + 1)))) ->
    side_inv es ss P k s -> side_inv es (ss + Z.of_nat n) P k s'.
  Proof.
    intros HL Hok HS [_ HB]. split; [exact Hok|]. intros c Hc. destruct (HS c Hc) as [S1 S2]. destruct (Nat.lt_ge_cases (c + n) w) as [Hlt|Hge].
    - destruct (HB (c + n) Hlt) as (x & Hx & Hb). exists x. split; [apply S1; assumption|].
      replace (ss + Z.of_nat n + Z.of_nat c)%Z with (ss + Z.of_nat (c + n))%Z by lia. exact Hb.
    - eexists. split; [apply S2, Hge|]. left. split; [reflexivity|]. intros r vals Hi. exfalso. specialize (HL _ _ _ Hi). lia.
  Qed.

  Lemma md_shifts_ok es s n : Forall (mfits D h w) es -> md_inv es s -> exists s', md_shift_series s n = Ok s' /\ md_inv (es ++ [EShiftS n]) s'.
  Proof.
    intros HF (I1 & I2 & I3 & I4 & I5 & I6 & I7). unfold md_shift_series. unfold md_inv. rewrite qshift_app, sshift_app. cbn [qshift sshift event_qshift event_sshift]. rewrite !Z.add_0_r.
    assert (Hlog : mlog (es ++ [EShiftS n]) = mlog es).
    { unfold mlog. rewrite map_app; cbn [map]; rewrite log_snoc. cbn [map tr event_cells]. apply app_nil_r. }
    rewrite Hlog. destruct (Nat.eqb_spec n 0) as [->|Hn].
    - rewrite Z.add_0_r. exists s. split; [reflexivity|]. auto 10.
    - assert (HLb : forall r c vals, In (r, c, vals) (mlog es) -> (c < sshift es + Z.of_nat w)%Z).
      { intros r c vals Hi. rewrite <- tr_sshift. eapply log_bound_gen; [apply mfits_fits, HF|exact Hi]. }
      set (P1 := fun k (la la' : sd * sd) => side_inv (mlog es) (sshift es + Z.of_nat n) is_left k (fst la') /\ side_inv (mlog es) (sshift es + Z.of_nat n) is_right k (snd la')).
      assert (X : exists l1, foldM (fun lanes dim => do lane <- getitem lanes dim; do l <- sd_push n dim (fst lane); do r <- sd_push n dim (snd lane); setitem lanes dim (l, r)) (seq 0 (length (md_lanes s))) (md_lanes s) = Ok l1 /\
         length l1 = length (md_lanes s) /\ forall k lane, nth_error (md_lanes s) k = Some lane -> exists lane', nth_error l1 k = Some lane' /\ P1 k lane lane').
      { set (f := fun (lanes : list (sd * sd)) dim => do lane <- getitem lanes dim; do l <- sd_push n dim (fst lane); do r <- sd_push n dim (snd lane); setitem lanes dim (l, r)).
        destruct (@lanes_loop _ _ (fun (st : unit * list (sd * sd)) dim => do l <- f (snd st) dim; Ok (tt, l)) (fun _ => tt) P1 (md_lanes s)) as (l1 & E1 & L1 & G1).
        { intros k ls lane Hk Hls Hlk. destruct (I7 k lane Hk) as [SL SR]. cbn [snd]. unfold f. rewrite (proj2 (getitem_ok _ _ _) Hlk). cbn [bind].
          destruct (@sd_push_ok A w (fst lane) k n Hw (proj1 SL)) as (l' & -> & Ol & Gl). cbn [bind].
          destruct (@sd_push_ok A w (snd lane) k n Hw (proj1 SR)) as (r' & -> & Or & Gr). cbn [bind].
          rewrite setitem_ok by (rewrite Hls; eapply nth_error_some_lt; exact Hk). cbn [bind].
          exists (l', r'). split; [|reflexivity]. split; eapply side_push; eassumption. }
        exists l1. split; [|split; [exact L1|exact G1]].
        assert (Y : forall l a, foldM (fun (st : unit * list (sd * sd)) dim => do l <- f (snd st) dim; Ok (tt, l)) l (tt, a) = do x <- foldM f l a; Ok (tt, x)).
        { induction l as [|x l IH]; intro a; [reflexivity|]. cbn [foldM snd]. destruct (f a x); cbn [bind]; [apply IH|reflexivity]. }
        rewrite Y in E1. destruct (foldM f _ _); cbn [bind] in E1; [injection E1 as ->; reflexivity|discriminate]. }
      destruct X as (l1 & E1 & L1 & G1). rewrite I1, <- I6, E1. cbn [bind]. eexists. split; [reflexivity|]. cbn [md_ndim md_range md_ss md_qs md_lanes].
      do 3 (split; [congruence || assumption|]). split; [congruence|]. split; [exact I5|]. split; [congruence|]. intros k lane1 Hl1.
      destruct (@nth_error_lt_some _ (md_lanes s) k) as [lane0 Hl0]; [rewrite <- L1; eapply nth_error_some_lt; exact Hl1|].
      destruct (G1 k lane0 Hl0) as (lane1' & Hl1' & HP1). assert (lane1' = lane1) by congruence. subst lane1'. exact HP1.
  Qed.

  Lemma md_init_ok memn memz memd sf : (1 <= sf)%Q -> (sf <= 2)%Q -> exists s0, md_init memn memz memd sf D h w = Ok s0 /\ md_inv [] s0.
  Proof.
    intros S1 S2. unfold md_init. rewrite (proj2 (Qle_bool_iff _ _) S1). cbn [negb].
    destruct (@full_new _ memz (arange 0 w) sf S1 S2) as (b & -> & F & V); [rewrite length_arange; exact Hw|]. cbn [bind]. rewrite length_arange in F.
    set (f := fun dim => do l <- sd_init memn memz memd sf w dim; do r <- sd_init memn memz memd sf w dim; Ok (l, r)).
    destruct (mapM_ok f (seq 0 D)) as (lanes & E & L & G).
    { intros k _. unfold f. destruct (@sd_init_ok A memn memz memd sf w k S1 S2 Hw) as (s & -> & _). cbn [bind]. eauto. }
    rewrite E. cbn [bind]. eexists. split; [reflexivity|]. unfold md_inv. cbn [md_ndim md_range md_ss md_qs md_lanes qshift sshift].
    do 5 (split; [auto|]). rewrite seq_length in L. split; [exact L|]. intros k lane Hl.
    assert (Hk : k < D) by (rewrite <- L; eapply nth_error_some_lt; exact Hl).
    assert (Hseq : nth_error (seq 0 D) k = Some k) by (rewrite nth_error_seq; destruct (Nat.ltb_spec k D); [reflexivity|lia]).
    destruct (G k k Hseq) as (y & Hy & Ef). assert (y = lane) by congruence. subst y.
    unfold f in Ef. destruct (@sd_init_ok A memn memz memd sf w k S1 S2 Hw) as (s & Es & Hok & Hs). rewrite Es in Ef. cbn [bind] in Ef. injection Ef as <-. cbn [fst snd].
    split; (split; [exact Hok|]; intros c Hc; eexists; split; [apply Hs, Hc|apply mdb_nil]).
  Qed.

  Lemma md_diags_snoc (es : list (event num)) e : forall sdiff, md_diags_ok w sdiff (es ++ [e]) -> md_diags_ok w sdiff es /\
    match e with
    | EDiag d vs => ((0 <= d)%Z <-> (0 <= d + (sdiff + sshift es - qshift es))%Z) /\ Z.to_nat (- d) + length (hd [] vs) <= w
    | _ => True
    end.
  Proof.
    induction es as [|e1 es IH]; intros sdiff H.
    - cbn [app md_diags_ok qshift sshift] in *. split; [exact I|]. rewrite Z.add_0_r, Z.sub_0_r. apply H.
    - cbn [app md_diags_ok] in H. destruct H as [H1 H2]. destruct (IH _ H2) as [H3 H4]. split; [split; assumption|].
      destruct e; auto. cbn [qshift sshift]. replace (sdiff + (event_sshift e1 + sshift es) - (event_qshift e1 + qshift es))%Z with (sdiff + event_sshift e1 - event_qshift e1 + sshift es - qshift es)%Z by lia. exact H4.
  Qed.

  Lemma md_run_ok argsort s0 es : argsorts argsort -> md_inv [] s0 -> Forall (mfits D h w) es -> Forall nonneg (filter (fun e => match e with EDiag _ _ => true | _ => false end) es) ->
    md_diags_ok w 0 es -> exists s, md_run argsort s0 es = Ok s /\ md_inv es s.
  Proof.
    intros Ha H0. induction es as [|e es IH] using rev_ind; intros HF HN HD2; [exists s0; split; [reflexivity|exact H0]|].
    apply Forall_app in HF. destruct HF as [HF He]. apply Forall_inv in He. rewrite filter_app in HN. apply Forall_app in HN. destruct HN as [HN HNe].
    apply md_diags_snoc in HD2. destruct HD2 as [HD2 HDe]. destruct (IH HF HN HD2) as (s & E & HI). unfold md_run in *. rewrite foldM_app, E. cbn [bind foldM].
    assert (X : exists s', md_step argsort s e = Ok s' /\ md_inv (es ++ [e]) s').
    { destruct e as [d vs|c vs|n|n]; cbn [md_step filter] in *.
      - apply Forall_inv in HNe. destruct HDe as [HD3 HD4]. cbn [Z.add] in HD3. apply md_diag_ok; assumption.
      - apply md_col_ok; assumption.
      - apply md_shifts_ok; assumption.
      - apply md_shiftq_ok; assumption. }
    destruct X as (s' & -> & HI'). cbn [bind]. exists s'. auto.
  Qed.

  Lemma mlog_nan (es : list (event num)) : Forall (mfits D h w) es -> forall r c vals, In (r, c, vals) (mlog es) -> forall y, In y vals -> isnan y = false.
  Proof.
    intros HF. induction es as [|e es IH] using rev_ind; intros r c vals Hi; [destruct Hi|].
    apply Forall_app in HF. destruct HF as [HF He]. apply Forall_inv in He. unfold mlog in Hi. rewrite map_app in Hi. cbn [map] in Hi. rewrite log_snoc in Hi.
    apply in_app_or in Hi. destruct Hi as [Hi|Hi]; [apply (IH HF _ _ _ Hi)|].
    destruct e as [d vs|cc vs|n|n]; cbn [tr event_cells] in Hi; [| |destruct Hi|destruct Hi];
      unfold diag_cells, col_cells in Hi; apply in_mapi in Hi; destruct Hi as (p & y & Hp & Ee); injection Ee as E1 E2 E3; subst y;
      destruct He as (_ & n & HR & _); intros y Hy; apply nth_error_In, (chans_in HR) in Hp; destruct Hp as (q & Hq & ->); apply real_nan; eapply chan_real; eauto.
  Qed.

  Lemma md_read_ok es s : Forall (mfits D h w) es -> md_inv es s -> forall k c, k < D -> c < w ->
    exists l r m, md_left s k c = Ok l /\ md_right s k c = Ok r /\ md_merged s k c = Ok m /\
      md_best (mlog es) (is_left (sshift es + Z.of_nat c)) (sshift es + Z.of_nat c) k l /\
      md_best (mlog es) (is_right (sshift es + Z.of_nat c)) (sshift es + Z.of_nat c) k r /\
      md_best (mlog es) all_rows (sshift es + Z.of_nat c) k m.
  Proof.
    intros HF (I1 & I2 & I3 & I4 & I5 & I6 & I7) k c Hk Hc. destruct (@nth_error_lt_some _ (md_lanes s) k) as [lane Hl]; [lia|].
    destruct (I7 k lane Hl) as [[Ol BL] [Or BR]]. destruct (BL c Hc) as (l & (L1 & L2 & L3) & Hbl). destruct (BR c Hc) as (r & (R1 & R2 & R3) & Hbr).
    set (a := (sshift es + Z.of_nat c)%Z) in *.
    assert (EL : md_left s k c = Ok l).
    { unfold md_left. rewrite (proj2 (getitem_ok _ _ _) Hl). cbn [bind]. unfold sd_read. rewrite (proj2 (getitem_ok _ _ _) L1), (proj2 (getitem_ok _ _ _) L2), (proj2 (getitem_ok _ _ _) L3). cbn [bind]. destruct l as [[? ?] ?]. reflexivity. }
    assert (ER : md_right s k c = Ok r).
    { unfold md_right. rewrite (proj2 (getitem_ok _ _ _) Hl). cbn [bind]. unfold sd_read. rewrite (proj2 (getitem_ok _ _ _) R1), (proj2 (getitem_ok _ _ _) R2), (proj2 (getitem_ok _ _ _) R3). cbn [bind]. destruct r as [[? ?] ?]. reflexivity. }
    exists l, r, (if fltb (fst (fst l)) (fst (fst r)) then l else r). split; [exact EL|]. split; [exact ER|].
    split; [unfold md_merged; rewrite EL; cbn [bind]; rewrite ER; reflexivity|].
    assert (HNan := mlog_nan HF). split; [apply mdb_md_best; assumption|]. split; [apply mdb_md_best; assumption|]. apply mdb_md_best; [exact HNan|].
    assert (Nl := mdb_nan Hbl). assert (Nr := mdb_nan Hbr).
    assert (Bl : forall q vals, In (q, a, vals) (mlog es) -> is_left a q = true -> fltb (avg k vals) (fst (fst l)) = false) by (destruct Hbl as [[-> X]|(_ & _ & _ & X)]; exact X).
    assert (Br : forall q vals, In (q, a, vals) (mlog es) -> is_right a q = true -> fltb (avg k vals) (fst (fst r)) = false) by (destruct Hbr as [[-> X]|(_ & _ & _ & X)]; exact X).
    assert (Sides : forall q, is_left a q = true \/ is_right a q = true).
    { intro q. unfold is_left, is_right. destruct (q <=? a)%Z; auto. }
    destruct (fltb (fst (fst l)) (fst (fst r))) eqn:Elt.
    - assert (Hall : forall q vals, In (q, a, vals) (mlog es) -> fltb (avg k vals) (fst (fst l)) = false).
      { intros q vals Hi. destruct (Sides q) as [Hq|Hq]; [eapply Bl; eassumption|]. eapply fltb_false_trans; [exact Nr|eapply Br; eassumption|]. apply fltb_asym, Elt. }
      destruct Hbl as [[-> _]|(X1 & X2 & X3 & _)]; [cbn [fst] in Elt; destruct (fst (fst r)); discriminate Elt|]. right. split; [exact X1|]. split; [reflexivity|]. split; [exact X3|]. intros q vals Hi _. apply (Hall q vals Hi).
    - assert (Hall : forall q vals, In (q, a, vals) (mlog es) -> fltb (avg k vals) (fst (fst r)) = false).
      { intros q vals Hi. destruct (Sides q) as [Hq|Hq]; [|eapply Br; eassumption]. eapply fltb_false_trans; [exact Nl|eapply Bl; eassumption|exact Elt]. }
      destruct Hbr as [[-> _]|(X1 & X2 & X3 & _)].
      + left. split; [reflexivity|]. intros q vals Hi _. apply (Hall q vals Hi).
      + right. split; [exact X1|]. split; [reflexivity|]. split; [exact X3|]. intros q vals Hi _. apply (Hall q vals Hi).
  Qed.
End Run.

Section Theorems.
  Context {A : Type} {NA : NumOps A} {OL : OrdLaws A} {AL : AvgLaws A}.
  Notation num := (Np.num A).

  Lemma C50_lemma memn memz memd (sf : Q) D h w argsort (es : list (event num)) :
    (1 <= sf)%Q -> (sf <= 2)%Q -> 0 < D -> 0 < w -> argsorts argsort -> Forall (mfits D h w) es ->
    Forall nonneg (filter (fun e => match e with EDiag _ _ => true | _ => false end) es) -> md_diags_ok w 0 es ->
    exists s0 s, md_init memn memz memd sf D h w = Ok s0 /\ md_run argsort s0 es = Ok s /\
      forall k c, k < D -> c < w -> let a := (sshift es + Z.of_nat c)%Z in
        exists l r m, md_left s k c = Ok l /\ md_right s k c = Ok r /\ md_merged s k c = Ok m /\
          md_best (mlog es) (is_left a) a k l /\ md_best (mlog es) (is_right a) a k r /\ md_best (mlog es) all_rows a k m.
  Proof.
    intros S1 S2 HD Hw Ha HF HN HO.
    destruct (@md_init_ok A NA D h w HD Hw memn memz memd sf S1 S2) as (s0 & E0 & I0).
    destruct (@md_run_ok A NA OL AL D h w HD Hw argsort s0 es Ha I0 HF HN HO) as (s & E & I).
    exists s0, s. split; [exact E0|]. split; [exact E|]. intros k c Hk Hc a. apply (@md_read_ok A NA OL D h w HD Hw es s HF I k c Hk Hc).
  Qed.

  Lemma C49_lemma memn memz memd (sf : Q) D h w argsort (es : list (event num)) :
    (1 <= sf)%Q -> (sf <= 2)%Q -> 0 < D -> 0 < w -> argsorts argsort -> Forall (mfits D h w) es ->
    Forall (fun e => ~ is_diag e) es ->
    exists s0 s, md_init memn memz memd sf D h w = Ok s0 /\ md_run argsort s0 es = Ok s /\
      forall k c, k < D -> c < w -> let a := (sshift es + Z.of_nat c)%Z in
        exists l r m, md_left s k c = Ok l /\ md_right s k c = Ok r /\ md_merged s k c = Ok m /\
          md_best (mlog es) (is_left a) a k l /\ md_best (mlog es) (is_right a) a k r /\ md_best (mlog es) all_rows a k m.
  Proof.
    intros S1 S2 HD Hw Ha HF HC. apply C50_lemma; try assumption.
    - clear - HC. induction HC as [|e es He _ IH]; [constructor|]. cbn [filter]. destruct e; try exact IH. exfalso. apply He. exact I.
    - clear - HC. generalize 0%Z. induction HC as [|e es He _ IH]; intro z; [exact I|]. cbn [md_diags_ok]. split; [|apply IH]. destruct e; try exact I. exfalso. apply He. exact I.
  Qed.

  (** The distance of an entry is determined *)
  Lemma md_best_unique L P a k x y : (forall r c vals, In (r, c, vals) L -> forall v, In v vals -> isnan v = false) ->
    md_best L P a k x -> md_best L P a k y -> fst (fst x) = fst (fst y).
  Proof.
    destruct x as [[v q] ds], y as [[v' q'] ds']. intros HN HX HY. cbn [fst].
    destruct HX as [(-> & _ & _ & X)|(X1 & X2 & (vals & X3 & X4) & X)], HY as [(-> & _ & _ & Y)|(Y1 & Y2 & (vals' & Y3 & Y4) & Y)]; [reflexivity| | |].
    - rewrite (X _ _ _ _ Y3 Y2 Y4) in Y1. discriminate.
    - rewrite (Y _ _ _ _ X3 X2 X4) in X1. discriminate.
    - pose proof (X _ _ _ _ Y3 Y2 Y4) as F1. pose proof (Y _ _ _ _ X3 X2 X4) as F2.
      apply fltb_nonnan in X1. apply fltb_nonnan in Y1. apply fle_antisym; [apply fltb_false_fleb|apply fltb_false_fleb]; tauto.
  Qed.
End Theorems.

From Verif Require Import Inst.
#[export] Instance AvgZ : AvgLaws Z.
Proof.
  constructor; cbn; intros.
  - apply Z.ltb_ge in H. apply Z.ltb_ge. apply Z.div_le_mono; lia.
  - apply Z.ltb_ge in H. apply Z.ltb_ge. lia.
Qed.

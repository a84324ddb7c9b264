(** * PFilter: proofs about MFilter *)
From Coq Require Import QArith Reals.
From Verif Require Import Np NpFacts SLog PLog MRing PRing MArith SReal SCalc SGen MFilter SFilter PSort PArith PStats PGenRun.
Set Implicit Arguments.
Open Scope nat_scope.

(** ** Masks of subsequences *)
Section Mask.
  Variable m : nat.
  Hypothesis Hm : 0 < m.
  Definition countdown (p : list bool) : nat := fold_left (fun k (b : bool) => pred (if b then m else k)) p 0.
  Lemma countdown_snoc p b : countdown (p ++ [b]) = pred (if b then m else countdown p).
  Proof. unfold countdown. rewrite fold_left_app. reflexivity. Qed.
  Lemma lastn_snoc {T} n (l : list T) x : 0 < n -> lastn n (l ++ [x]) = lastn (n - 1) l ++ [x].
  Proof.
    clear. intro H. unfold lastn. rewrite app_length, skipn_app. cbn [length].
    replace (length l + 1 - n) with (length l - (n - 1)) by lia. f_equal.
    replace (length l - (n - 1) - length l) with 0 by lia. reflexivity.
  Qed.
  Lemma countdown_spec p j : (j <? countdown p) = existsb (fun b => b) (lastn (m - 1 - j) p).
  Proof.
    revert j. induction p as [|b p IH] using rev_ind; intro j.
    - unfold countdown. cbn [fold_left]. unfold lastn. rewrite skipn_nil. destruct (Nat.ltb_spec j 0); [lia|reflexivity].
    - rewrite countdown_snoc. destruct (le_lt_dec (m - 1) j) as [L|L].
      + replace (m - 1 - j) with 0 by lia. unfold lastn. rewrite Nat.sub_0_r, skipn_all. cbn [existsb].
        apply Nat.ltb_ge. destruct b; [lia|]. specialize (IH (m - 1)). rewrite Nat.sub_diag in IH. unfold lastn in IH.
        rewrite Nat.sub_0_r, skipn_all in IH. apply Nat.ltb_ge in IH. lia.
      + rewrite lastn_snoc, existsb_app by lia. cbn [existsb]. rewrite orb_false_r. destruct b.
        * rewrite orb_true_r. apply Nat.ltb_lt. lia.
        * rewrite orb_false_r. replace (m - 1 - j - 1) with (m - 1 - Datatypes.S j) by lia. rewrite <- IH.
          destruct (Nat.ltb_spec (Datatypes.S j) (countdown p)); destruct (Nat.ltb_spec j (pred (countdown p))); auto; lia.
  Qed.
  Lemma firstn_S {T} (l : list T) n x : nth_error l n = Some x -> firstn (Datatypes.S n) l = firstn n l ++ [x].
  Proof. clear. revert n. induction l as [|a l IH]; intros [|n] H; cbn in *; try discriminate; [congruence|]. f_equal. apply IH. exact H. Qed.
  Lemma getitem_ex {T} (l : list T) i : i < length l -> exists x, nth_error l i = Some x /\ getitem l i = Ok x.
  Proof. clear. intro H. unfold getitem. destruct (nth_error l i) as [x|] eqn:E; [eauto|]. apply nth_error_None in E. lia. Qed.

  Lemma mask_loop1 bad n : n <= length bad ->
    foldM (fun k i => do b <- getitem bad i; Ok (pred (if b : bool then m else k))) (seq 0 n) 0 = Ok (countdown (firstn n bad)).
  Proof.
    clear Hm. induction n as [|n IH]; intro H; [reflexivity|]. rewrite seq_S, foldM_app, IH by lia. cbn [bind foldM Nat.add].
    destruct (@getitem_ex _ bad n) as (x & E & G); [lia|]. rewrite G. cbn [bind]. rewrite (firstn_S _ _ E), countdown_snoc. reflexivity.
  Qed.
  Lemma lastn_firstn {T} (l : list T) i : i + m <= length l -> lastn m (firstn (i + m) l) = sub m l i.
  Proof.
    clear. intro H. unfold lastn, sub. rewrite firstn_length_le by lia. replace (i + m - m) with i by lia.
    rewrite skipn_firstn_comm. f_equal. lia.
  Qed.
  Lemma mask_loop2 bad n : m - 1 + n <= length bad ->
    foldM (fun s i =>
              do b <- getitem bad i;
              let k := if b : bool then m else fst s in
              if 0 <? k then do result <- setitem (snd s) (i + 1 - m) true; Ok (k - 1, result) else Ok (k, snd s))
      (seq (m - 1) n) (countdown (firstn (m - 1) bad), repeat false (length bad + 1 - m)) =
    Ok (countdown (firstn (m - 1 + n) bad), map (spoiled m bad) (seq 0 n) ++ repeat false (length bad + 1 - m - n)).
  Proof.
    induction n as [|n IH]; intro H; [cbn [seq map app foldM]; rewrite Nat.add_0_r, Nat.sub_0_r; reflexivity|].
    rewrite seq_S, foldM_app, IH by lia. cbn [bind foldM fst snd]. destruct (@getitem_ex _ bad (m - 1 + n)) as (x & E & G); [lia|]. rewrite G. cbn [bind].
    replace (m - 1 + Datatypes.S n) with (Datatypes.S (m - 1 + n)) by lia. rewrite (firstn_S _ _ E), countdown_snoc.
    rewrite seq_S, map_app. cbn [map Nat.add]. rewrite <- app_assoc. cbn [app].
    assert (K : (0 <? (if x then m else countdown (firstn (m - 1 + n) bad))) = spoiled m bad n).
    { unfold spoiled. rewrite <- lastn_firstn by lia. replace (n + m) with (Datatypes.S (m - 1 + n)) by lia. rewrite (firstn_S _ _ E).
      rewrite lastn_snoc by lia. rewrite existsb_app. cbn [existsb]. rewrite orb_false_r. destruct x.
      - rewrite orb_true_r. apply Nat.ltb_lt. lia.
      - rewrite orb_false_r, countdown_spec, Nat.sub_0_r. reflexivity. }
    set (k := if x then m else countdown (firstn (m - 1 + n) bad)) in *. rewrite K.
    replace (length bad + 1 - m - n) with (Datatypes.S (length bad + 1 - m - Datatypes.S n)) by lia. cbn [repeat].
    replace (m - 1 + n + 1 - m) with n by lia.
    destruct (spoiled m bad n).
    - unfold setitem, splice. rewrite app_length, map_length, seq_length. cbn [length]. rewrite repeat_length.
      destruct (Nat.ltb_spec n (n + Datatypes.S (length bad + 1 - m - Datatypes.S n))); [|lia]. cbn [bind]. apply f_equal. apply f_equal2; [lia|].
      cbn [length]. rewrite firstn_app, map_length, seq_length, Nat.sub_diag. rewrite firstn_all2 by (rewrite map_length, seq_length; lia). cbn [firstn].
      rewrite skipn_app, map_length, seq_length. rewrite skipn_all2 by (rewrite map_length, seq_length; lia).
      replace (n + 1 - n) with 1 by lia. cbn [skipn app]. rewrite app_nil_r. reflexivity.
    - apply Nat.ltb_ge in K. cbn [bind]. apply f_equal. apply f_equal2; [lia|reflexivity].
  Qed.
  Lemma invalid_subseq_ok bad : m <= length bad + 1 -> invalid_subseq bad m = Ok (windowed (existsb (fun b => b)) m bad).
  Proof.
    intro H. unfold invalid_subseq. destruct (Nat.ltb_spec (length bad + 1) m); [lia|]. rewrite mask_loop1 by lia. cbn [bind].
    rewrite mask_loop2 by lia. cbn [bind snd]. replace (length bad + 1 - m - (length bad - (m - 1))) with 0 by lia. cbn [repeat]. rewrite app_nil_r.
    unfold windowed. replace (length bad - (m - 1)) with (length bad + 1 - m) by lia. reflexivity.
  Qed.
  Lemma spoiled_spec bad i : i + m <= length bad -> spoiled m bad i = true <-> exists k, k < m /\ nth_error bad (i + k) = Some true.
  Proof.
    clear Hm. intro H. unfold spoiled. rewrite existsb_exists. split.
    - intros (x & I & ->). apply In_nth_error in I as (k & Hk). rewrite nth_error_sub in Hk. destruct (Nat.ltb_spec k m); [|discriminate]. eauto.
    - intros (k & Hk & E). exists true. split; [|reflexivity]. apply nth_error_In with (n := k). rewrite nth_error_sub. destruct (Nat.ltb_spec k m); [|lia]. exact E.
  Qed.
End Mask.

(** ** Answers *)
Notation hit := (existsb (fun b : bool => b)).
Section Gen.
  Context {A : Type} {NA : NumOps A}.
  Notation num := (Np.num A).
  Variable G : Type.
  Variable g_col : G -> nat -> res (G * list num).
  Variable g_diag : G -> Z -> res (G * list num).
  Variable g_s g_q : G -> list num -> res G.
  Variable invalid : list num -> nat -> list bool.
  Variable m : nat.
  Hypothesis Hm : 0 < m.

  Lemma zero_out_cleaned xs : zero_out xs (invalid xs m) = cleaned invalid m xs.
  Proof.
    clear. unfold zero_out, cleaned. apply nth_error_ext. intro i. rewrite nth_error_zip_with, nth_error_map, nth_error_combine.
    destruct (nth_error xs i); [|reflexivity]. destruct (nth_error (invalid xs m) i); reflexivity.
  Qed.
  Lemma zero_out_valid (xs : list num) bad : length bad = length xs -> hit bad = false -> zero_out xs bad = xs.
  Proof.
    clear. unfold zero_out. revert bad. induction xs as [|x xs IH]; intros [|b bad] L E; cbn in *; try discriminate; [reflexivity|].
    apply orb_false_elim in E as [-> E]. rewrite IH by lia || assumption. reflexivity.
  Qed.
  Lemma length_cleaned xs : length (invalid xs m) = length xs -> length (cleaned invalid m xs) = length xs.
  Proof. clear. intro H. unfold cleaned. rewrite map_length, combine_length. lia. Qed.

  Lemma set_inf_ok (ds : list num) mask : length mask = length ds ->
    set_inf ds mask = Ok (mapi (fun i v => if nth i mask false then PInf else v) ds).
  Proof.
    clear. intro L. unfold set_inf. rewrite (proj2 (Nat.eqb_eq _ _) L). apply f_equal. apply nth_error_ext. intro i.
    rewrite nth_error_zip_with, nth_error_mapi. destruct (nth_error ds i) as [v|] eqn:E; [|reflexivity]. cbn [option_map].
    destruct (nth_error mask i) as [b|] eqn:F; [rewrite (nth_error_nth _ _ false F); reflexivity|].
    apply nth_error_None in F. assert (i < length ds) by (apply nth_error_Some; congruence). lia.
  Qed.
  Lemma nth_windowed {T U} (st : list T -> U) l i d : i + m <= length l -> nth i (windowed st m l) d = st (sub m l i).
  Proof.
    clear. intro H. apply nth_error_nth. rewrite nth_error_windowed. destruct (Nat.ltb_spec i (length l + 1 - m)); [reflexivity|lia].
  Qed.
  Lemma mapi_ext {U V} (f g : nat -> U -> V) l : (forall i x, nth_error l i = Some x -> f i x = g i x) -> mapi f l = mapi g l.
  Proof. clear. intro H. unfold mapi. apply mapi_from_ext. exact H. Qed.
  Lemma mapi_mapi {U V T} (f : nat -> V -> T) (g : nat -> U -> V) l : mapi f (mapi g l) = mapi (fun i x => f i (g i x)) l.
  Proof. clear. apply nth_error_ext. intro i. rewrite !nth_error_mapi. destruct (nth_error l i); reflexivity. Qed.

  Lemma col_masked bs bq c (col : list num) : spoiled m bs c = false -> length col = length bq + 1 - m ->
    set_inf col (windowed hit m bq) = Ok (filtered_col m bs bq c col).
  Proof. clear - Hm.
    intros Hs L. rewrite set_inf_ok by (rewrite length_windowed; lia). apply f_equal. unfold filtered_col. apply mapi_ext. intros r v E.
    assert (r < length col) by (apply nth_error_Some; congruence). rewrite nth_windowed by lia. rewrite Hs. reflexivity.
  Qed.
  Lemma col_all bs bq c (col : list num) : spoiled m bs c = true -> filtered_col m bs bq c col = repeat PInf (length col).
  Proof. clear.
    intro Hs. unfold filtered_col. apply nth_error_ext. intro i. rewrite nth_error_mapi, nth_error_repeat', Hs. cbn [orb].
    destruct (nth_error col i) eqn:E; destruct (Nat.ltb_spec i (length col)); auto.
    - assert (i < length col) by (apply nth_error_Some; congruence). lia.
    - apply nth_error_None in E. lia.
  Qed.
  Lemma getitem_mask bs c : c + m <= length bs -> getitem (windowed hit m bs) c = Ok (spoiled m bs c).
  Proof. clear - Hm. intro H. unfold getitem. rewrite nth_error_windowed. destruct (Nat.ltb_spec c (length bs + 1 - m)); [reflexivity|lia]. Qed.
  Lemma diag_masked bs bq g g' d (ds : list num) : g_diag g d = Ok (g', ds) -> has_diag m bs bq d ->
    length ds = Z.to_nat (dlen (length bq + 1 - m) (length bs + 1 - m) d) ->
    filter_diagonal g_diag (windowed hit m bs) (windowed hit m bq) g d = Ok (g', filtered_diag m bs bq d ds).
  Proof. clear - Hm.
    intros E (i & j & Hi & Hj & Hd) L. unfold filter_diagonal. rewrite E. cbn [bind fst snd]. unfold dlen in L.
    assert (S : forall l o, o + length ds <= length l + 1 - m -> slice (windowed hit m l) (Z.of_nat o) (Z.of_nat o + Z.of_nat (length ds)) = sub (length ds) (windowed hit m l) o).
    { intros l o Ho. rewrite <- Nat2Z.inj_add, slice_nat, lslice_sub. reflexivity. }
    assert (N : forall l o k, o + length ds <= length l + 1 - m -> k < length ds -> nth k (sub (length ds) (windowed hit m l) o) false = spoiled m l (o + k)).
    { intros l o k Ho Hk. rewrite nth_sub by exact Hk. apply nth_windowed. lia. }
    assert (K : forall l o, o + length ds <= length l + 1 - m -> length (sub (length ds) (windowed hit m l) o) = length ds).
    { intros l o Ho. rewrite length_sub, length_windowed. lia. }
    unfold filtered_diag. destruct (Z.leb_spec 0 d) as [D|D].
    - pose proof (S bs (Z.to_nat d)) as S1. pose proof (S bq 0) as S2. rewrite Z2Nat.id in S1 by lia. change (Z.of_nat 0) with 0%Z in S2. rewrite Z.add_0_l in S2. rewrite S1, (S2 ltac:(lia)) by lia.
      replace (Z.to_nat (- d)) with 0 by lia.
      rewrite set_inf_ok by (apply K; lia). cbn [bind]. rewrite set_inf_ok by (rewrite length_mapi; apply K; lia). cbn [bind]. apply f_equal. apply f_equal2; [reflexivity|].
      rewrite mapi_mapi. apply mapi_ext. intros k v Ek. assert (k < length ds) by (apply nth_error_Some; congruence).
      rewrite !N by lia. destruct (spoiled m bs (Z.to_nat d + k)), (spoiled m bq (0 + k)); reflexivity.
    - pose proof (S bq (Z.to_nat (- d))) as S1. pose proof (S bs 0) as S2. rewrite Z2Nat.id in S1 by lia. change (Z.of_nat 0) with 0%Z in S2. rewrite Z.add_0_l in S2. rewrite S1, (S2 ltac:(lia)) by lia.
      replace (Z.to_nat d) with 0 by lia.
      rewrite set_inf_ok by (apply K; lia). cbn [bind]. rewrite set_inf_ok by (rewrite length_mapi; apply K; lia). cbn [bind]. apply f_equal. apply f_equal2; [reflexivity|].
      rewrite mapi_mapi. apply mapi_ext. intros k v Ek. assert (k < length ds) by (apply nth_error_Some; congruence).
      rewrite !N by lia. destruct (spoiled m bs (0 + k)), (spoiled m bq (Z.to_nat (- d) + k)); reflexivity.
  Qed.

  (** ** Fixed data *)
  Definition fb_inv (bs bq : list bool) (f : fbatch G) : Prop :=
    fb_nq f = length bq + 1 - m /\ fb_s f = windowed hit m bs /\ fb_q f = windowed hit m bq.
  Lemma validated xs : length (invalid xs m) = length xs -> apply_validation invalid xs m = Ok (invalid xs m).
  Proof. clear. intro H. unfold apply_validation. rewrite H, Nat.eqb_refl. reflexivity. Qed.
  Lemma corrected xs : length (invalid xs m) = length xs -> m <= length xs + 1 ->
    correct_and_mask invalid xs m = Ok (cleaned invalid m xs, windowed hit m (invalid xs m)).
  Proof. clear - Hm.
    intros L H. unfold correct_and_mask. rewrite validated by exact L. cbn [bind]. rewrite invalid_subseq_ok by lia. cbn [bind].
    rewrite zero_out_cleaned. reflexivity.
  Qed.
  Lemma corrected_inv xs r : correct_and_mask invalid xs m = Ok r ->
    length (invalid xs m) = length xs /\ m <= length xs + 1 /\ r = (cleaned invalid m xs, windowed hit m (invalid xs m)).
  Proof. clear - Hm.
    intro E. assert (L : length (invalid xs m) = length xs /\ m <= length xs + 1).
    { unfold correct_and_mask, apply_validation in E. destruct (Nat.eqb_spec (length (invalid xs m)) (length xs)) as [L|L]; [|discriminate]. cbn [bind] in E.
      split; [exact L|]. unfold invalid_subseq in E. destruct (Nat.ltb_spec (length (invalid xs m) + 1) m); [discriminate|]. lia. }
    destruct L as [L1 L2]. rewrite corrected in E by assumption. inversion E. auto.
  Qed.

  Lemma fb_col_spoiled bs bq f c : fb_inv bs bq f -> c + m <= length bs -> spoiled m bs c = true ->
    fb_calc_column g_col f c = Ok (f, repeat PInf (length bq + 1 - m)).
  Proof. clear - Hm.
    intros (E1 & E2 & E3) Hc Hs. unfold fb_calc_column. rewrite E2, getitem_mask, Hs by assumption. cbn [bind]. rewrite E1. reflexivity.
  Qed.
  Lemma fb_col bs bq f c g' col : fb_inv bs bq f -> c + m <= length bs -> spoiled m bs c = false ->
    g_col (fb_g f) c = Ok (g', col) -> length col = length bq + 1 - m ->
    exists f', fb_calc_column g_col f c = Ok (f', filtered_col m bs bq c col) /\ fb_inv bs bq f' /\ fb_g f' = g'.
  Proof. clear - Hm.
    intros (E1 & E2 & E3) Hc Hs Eg L. unfold fb_calc_column. rewrite E2, getitem_mask, Hs by assumption. cbn [bind]. rewrite Eg. cbn [bind fst snd].
    rewrite E3, (col_masked _ _ _ _ Hs L). cbn [bind]. eexists. split; [reflexivity|]. split; [split; auto|reflexivity].
  Qed.
  Lemma fb_diag bs bq f d g' ds : fb_inv bs bq f -> has_diag m bs bq d -> g_diag (fb_g f) d = Ok (g', ds) ->
    length ds = Z.to_nat (dlen (length bq + 1 - m) (length bs + 1 - m) d) ->
    exists f', fb_calc_diagonal g_diag f d = Ok (f', filtered_diag m bs bq d ds) /\ fb_inv bs bq f' /\ fb_g f' = g'.
  Proof. clear - Hm.
    intros (E1 & E2 & E3) Hd Eg L. unfold fb_calc_diagonal. rewrite E2, E3, (@diag_masked bs bq (fb_g f) g' d ds Eg Hd L).
    cbn [bind fst snd]. eexists. split; [reflexivity|]. split; [split; auto|reflexivity].
  Qed.
  (** Calls do not change the masks *)
  Lemma fb_keeps_col bs bq f c f' v : fb_inv bs bq f -> fb_calc_column g_col f c = Ok (f', v) -> fb_inv bs bq f'.
  Proof. clear - Hm.
    intros (E1 & E2 & E3) E. unfold fb_calc_column in E. destruct (getitem (fb_s f) c) as [[|]|]; cbn [bind] in E; [inversion E; subst; split; auto| |discriminate].
    destruct (g_col (fb_g f) c) as [r|]; [|discriminate]. cbn [bind] in E. destruct (set_inf (snd r) (fb_q f)); [|discriminate]. inversion E; subst. split; auto.
  Qed.
  Lemma fb_keeps_diag bs bq f d f' v : fb_inv bs bq f -> fb_calc_diagonal g_diag f d = Ok (f', v) -> fb_inv bs bq f'.
  Proof. clear - Hm.
    intros (E1 & E2 & E3) E. unfold fb_calc_diagonal in E. destruct (filter_diagonal g_diag (fb_s f) (fb_q f) (fb_g f) d) as [r|]; [|discriminate].
    cbn [bind] in E. inversion E; subst. split; auto.
  Qed.
  Lemma fb_prepared (prepare : nat -> list num -> option (list num) -> res G) sf S q f : fb_prepare invalid prepare sf m S q = Ok f ->
    (1 <= sf)%Q /\ length (invalid S m) = length S /\ length (invalid (query_or S q) m) = length (query_or S q) /\ m <= length S + 1 /\ m <= length (query_or S q) + 1 /\
    prepare m (cleaned invalid m S) (option_map (cleaned invalid m) q) = Ok (fb_g f) /\ fb_inv (invalid S m) (invalid (query_or S q) m) f.
  Proof. clear - Hm.
    unfold fb_prepare. destruct (Qle_bool 1 sf) eqn:Eq; [|discriminate]. cbn [negb]. intro E.
    destruct (correct_and_mask invalid S m) as [r|] eqn:Er; [|discriminate]. cbn [bind] in E. apply corrected_inv in Er as (L1 & L2 & ->). cbn [fst snd] in E.
    apply Qle_bool_iff in Eq. destruct q as [q|]; cbn [query_or option_map].
    - destruct (correct_and_mask invalid q m) as [r|] eqn:Er; [|discriminate]. cbn [bind] in E. apply corrected_inv in Er as (L3 & L4 & ->). cbn [fst snd] in E.
      destruct (prepare m _ _) as [g|]; [|discriminate]. inversion E; subst. unfold fb_inv. cbn. rewrite L3. auto 10.
    - destruct (prepare m _ _) as [g|]; [|discriminate]. inversion E; subst. unfold fb_inv. cbn. rewrite L1. auto 10.
  Qed.
  Lemma fb_prepares (prepare : nat -> list num -> option (list num) -> res G) sf S q g : (1 <= sf)%Q -> length (invalid S m) = length S -> length (invalid (query_or S q) m) = length (query_or S q) ->
    m <= length S + 1 -> m <= length (query_or S q) + 1 -> prepare m (cleaned invalid m S) (option_map (cleaned invalid m) q) = Ok g ->
    exists f, fb_prepare invalid prepare sf m S q = Ok f /\ fb_g f = g.
  Proof. clear - Hm.
    intros H1 L1 L2 L3 L4 E. unfold fb_prepare. rewrite (proj2 (Qle_bool_iff _ _) H1), (corrected S L1 L3). cbn [negb bind].
    destruct q as [q|]; cbn [query_or option_map] in *; [rewrite (corrected q L2 L4)|]; cbn [bind fst snd]; rewrite E; cbn [bind]; eauto.
  Qed.

  (** ** Streaming *)
  Variables (self : bool) (W Wq : nat).
  Hypothesis HW : m <= W.
  Hypothesis HWq : self = false -> m <= Wq.

  Lemma masks_ok N l p k xs : m <= N -> win N l p -> win (N + 1 - m) (windowed hit m l) k -> xs <> [] -> length (invalid xs m) = length xs ->
    exists p' k', fs_masks invalid m p k xs = Ok (p', k', cleaned invalid m xs) /\ win N (lastn N (l ++ invalid xs m)) p' /\
      win (N + 1 - m) (windowed hit m (lastn N (l ++ invalid xs m))) k'.
  Proof. clear - Hm. intros HN Wp Wk Hx L. assert (Lx : 0 < length xs) by (destruct xs; [congruence|cbn; lia]).
    unfold fs_masks. rewrite validated by exact L. cbn [bind]. destruct (win_push (invalid xs m) Wp) as (p' & Ep & Wp'). rewrite Ep. cbn [bind fst].
    pose proof (win_len Wp) as Ll. pose proof Wp' as (_ & _ & _ & Vp & _). rewrite Vp.
    assert (Ev : (if hit (invalid xs m) then zero_out xs (invalid xs m) else xs) = cleaned invalid m xs).
    { rewrite <- zero_out_cleaned. destruct (hit (invalid xs m)) eqn:E; [reflexivity|]. symmetry. apply zero_out_valid; assumption. }
    rewrite Ev, (length_cleaned _ L), length_lastn, app_length, L.
    destruct (Nat.leb_spec m (Nat.min N (length l + length xs))) as [C|C].
    - replace (- (Z.of_nat (length xs) + Z.of_nat m - 1))%Z with (- Z.of_nat (length xs + m - 1))%Z by lia. rewrite slice_from_neg by lia.
      rewrite windows_ok; [|exact Hm|rewrite !length_lastn, app_length, L; lia]. cbn [bind]. rewrite map_map.
      set (part := lastn (length xs + m - 1) (lastn N (l ++ invalid xs m))).
      change (map (fun x => hit (sub m part x)) (seq 0 (length part + 1 - m))) with (windowed hit m part).
      destruct (win_push (windowed hit m part) Wk) as (k' & Ek & Wk'). rewrite Ek. cbn [bind fst]. exists p', k'. split; [reflexivity|]. split; [exact Wp'|].
      unfold part in Wk'. rewrite <- L in Wk'. rewrite windowed_push in Wk' by lia. exact Wk'.
    - cbn [bind]. exists p', k. split; [reflexivity|]. split; [exact Wp'|].
      assert (E : windowed hit m (lastn N (l ++ invalid xs m)) = windowed hit m l).
      { unfold windowed. rewrite length_lastn, app_length, L. replace (Nat.min N (length l + length xs) + 1 - m) with 0 by lia.
        replace (length l + 1 - m) with 0 by lia. reflexivity. }
      rewrite E. exact Wk.
  Qed.

  Record fs_inv (bs bq : list bool) (f : fstream G) : Prop := {
    fi_m : fs_m f = m;
    fi_self : fs_self f = self;
    fi_is : win W bs (fs_is f);
    fi_ms : win (W + 1 - m) (windowed hit m bs) (fs_ms f);
    fi_q : if self then bq = bs else win Wq bq (fs_iq f) /\ win (Wq + 1 - m) (windowed hit m bq) (fs_mq f)
  }.
  Lemma fi_view bs bq f : fs_inv bs bq f -> rb_view (fs_ms f) = windowed hit m bs /\ rb_view (fs_qmask f) = windowed hit m bq.
  Proof. clear - Hm HW HWq.
    intros [I1 I2 I3 I4 I5]. destruct I4 as (_ & _ & _ & V & _). split; [exact V|]. unfold fs_qmask. rewrite I2. revert I5. case self; [intros ->; exact V|].
    intros [_ (_ & _ & _ & V2 & _)]. exact V2.
  Qed.
  Lemma fs_inv_with bs bq f g : fs_inv bs bq f -> fs_inv bs bq (fs_with f g).
  Proof. clear - Hm HW HWq. intros [I1 I2 I3 I4 I5]. constructor; auto. Qed.

  Lemma fs_series bs bq f xs : fs_inv bs bq f -> xs <> [] -> length (invalid xs m) = length xs ->
    (exists e, g_s (fs_g f) (cleaned invalid m xs) = Err e /\ fs_append_series g_s invalid f xs = Err e) \/
    (exists f', g_s (fs_g f) (cleaned invalid m xs) = Ok (fs_g f') /\ fs_append_series g_s invalid f xs = Ok f' /\
      let bs' := lastn W (bs ++ invalid xs m) in fs_inv bs' (if self then bs' else bq) f').
  Proof. clear - Hm HW HWq.
    intros [I1 I2 I3 I4 I5] Hx L. unfold fs_append_series. destruct (masks_ok HW I3 I4 Hx L) as (p & k & E & Wp & Wk). rewrite I1, E. cbn [bind].
    destruct (g_s (fs_g f) (cleaned invalid m xs)) as [g|e]; [right|left; exists e; auto]. cbn [bind]. eexists. split; [|split; [reflexivity|]]; [reflexivity|].
    constructor; cbn [fs_m fs_self fs_is fs_ms fs_iq fs_mq]; auto. revert I5. case self; auto.
  Qed.
  Lemma fs_query bs bq f xs : self = false -> fs_inv bs bq f -> xs <> [] -> length (invalid xs m) = length xs ->
    (exists e, g_q (fs_g f) (cleaned invalid m xs) = Err e /\ fs_append_query g_q invalid f xs = Err e) \/
    (exists f', g_q (fs_g f) (cleaned invalid m xs) = Ok (fs_g f') /\ fs_append_query g_q invalid f xs = Ok f' /\
      fs_inv bs (lastn Wq (bq ++ invalid xs m)) f').
  Proof. clear - Hm HW HWq.
    intros Hs [I1 I2 I3 I4 I5] Hx L. unfold fs_append_query. rewrite I2, Hs. rewrite Hs in I5. destruct I5 as [I5 I6].
    destruct (masks_ok (HWq Hs) I5 I6 Hx L) as (p & k & E & Wp & Wk). rewrite I1, E. cbn [bind].
    destruct (g_q (fs_g f) (cleaned invalid m xs)) as [g|e]; [right|left; exists e; auto]. cbn [bind]. eexists. split; [|split; [reflexivity|]]; [reflexivity|].
    constructor; cbn [fs_m fs_self fs_is fs_ms fs_iq fs_mq]; auto. rewrite Hs. auto.
  Qed.
  Lemma fs_col_spoiled bs bq f c : fs_inv bs bq f -> c + m <= length bs -> spoiled m bs c = true ->
    fs_calc_column g_col f c = Ok (f, repeat PInf (length bq + 1 - m)).
  Proof. clear - Hm HW HWq.
    intros I Hc Hs. destruct (fi_view I) as [V1 V2]. unfold fs_calc_column. rewrite V1, V2, getitem_mask, Hs, length_windowed by assumption. reflexivity.
  Qed.
  Lemma fs_col bs bq f c g' col : fs_inv bs bq f -> c + m <= length bs -> spoiled m bs c = false ->
    g_col (fs_g f) c = Ok (g', col) -> length col = length bq + 1 - m ->
    fs_calc_column g_col f c = Ok (fs_with f g', filtered_col m bs bq c col).
  Proof. clear - Hm HW HWq.
    intros I Hc Hs Eg L. destruct (fi_view I) as [V1 V2]. unfold fs_calc_column. rewrite V1, V2, getitem_mask, Hs by assumption. cbn [bind]. rewrite Eg. cbn [bind fst snd].
    rewrite (col_masked _ _ _ _ Hs L). reflexivity.
  Qed.
  Lemma fs_diag bs bq f d g' ds : fs_inv bs bq f -> has_diag m bs bq d -> g_diag (fs_g f) d = Ok (g', ds) ->
    length ds = Z.to_nat (dlen (length bq + 1 - m) (length bs + 1 - m) d) ->
    fs_calc_diagonal g_diag f d = Ok (fs_with f g', filtered_diag m bs bq d ds).
  Proof. clear - Hm HW HWq.
    intros I Hd Eg L. destruct (fi_view I) as [V1 V2]. unfold fs_calc_diagonal. rewrite V1, V2, (@diag_masked bs bq (fs_g f) g' d ds Eg Hd L). reflexivity.
  Qed.

  (** Histories *)
  Definition fs_run := grun (fs_calc_column g_col) (fs_calc_diagonal g_diag) (fs_append_series g_s invalid) (fs_append_query g_q invalid).
  Definition inner_run := grun g_col g_diag g_s g_q.
  Lemma passed_snoc H0 H o : passed invalid m W H0 (H ++ [o]) =
    passed invalid m W H0 H ++ match o with CCol c => if spoiled m (badS invalid m W (H0 ++ H)) c then [] else [CCol c] | _ => [cleaned_call invalid m o] end.
  Proof.
    clear. revert H0. induction H as [|a H IH]; intro H0; cbn [app passed].
    - rewrite !app_nil_r. reflexivity.
    - rewrite IH, <- !app_assoc. reflexivity.
  Qed.
  Lemma badS_snoc H o : badS invalid m W (H ++ [o]) = match o with CSeries xs => lastn W (badS invalid m W H ++ invalid xs m) | _ => badS invalid m W H end.
  Proof.
    clear. unfold badS, wS. rewrite map_app. cbn [map]. rewrite s_points_snoc. destruct o; cbn [marks]; rewrite ?app_nil_r, ?lastn_app; reflexivity.
  Qed.
  Lemma badQ_snoc H o : badQ invalid m self W Wq (H ++ [o]) =
    if self then badS invalid m W (H ++ [o]) else match o with CQuery xs => lastn Wq (badQ invalid m self W Wq H ++ invalid xs m) | _ => badQ invalid m self W Wq H end.
  Proof.
    clear. unfold badQ, wQ. case self; [reflexivity|]. rewrite map_app. cbn [map]. rewrite q_points_snoc. destruct o; cbn [marks]; rewrite ?app_nil_r, ?lastn_app; reflexivity.
  Qed.

  Lemma fs_step_inv H f o f' : fs_inv (badS invalid m W H) (badQ invalid m self W Wq H) f -> proper_call invalid m o ->
    gstep (fs_calc_column g_col) (fs_calc_diagonal g_diag) (fs_append_series g_s invalid) (fs_append_query g_q invalid) f o = Ok f' ->
    fs_inv (badS invalid m W (H ++ [o])) (badQ invalid m self W Wq (H ++ [o])) f' /\
    inner_run (fs_g f) (match o with CCol c => if spoiled m (badS invalid m W H) c then [] else [CCol c] | _ => [cleaned_call invalid m o] end) = Ok (fs_g f').
  Proof. clear - Hm HW HWq.
    intros I Hp E. rewrite badQ_snoc, badS_snoc. unfold inner_run, grun. destruct o; cbn [gstep proper_call cleaned_call foldM] in *.
    - destruct Hp as [Hx L]. destruct (fs_series I Hx L) as [(e & _ & E')|(f2 & Eg & E' & I')]; [congruence|]. assert (f2 = f') by congruence. subst f2.
      rewrite Eg. cbn [bind]. split; [|reflexivity]. cbn zeta in I'. revert I'. case self; auto.
    - destruct Hp as [Hx L]. destruct (Bool.bool_dec self true) as [Hs|Hs].
      + unfold fs_append_query in E. rewrite (fi_self I), Hs in E. discriminate.
      + apply not_true_is_false in Hs. destruct (fs_query Hs I Hx L) as [(e & _ & E')|(f2 & Eg & E' & I')]; [congruence|]. assert (f2 = f') by congruence. subst f2.
        rewrite Eg. cbn [bind]. split; [|reflexivity]. revert I'. rewrite Hs. auto.
    - assert (Q0 : (if self then badS invalid m W H else badQ invalid m self W Wq H) = badQ invalid m self W Wq H) by (unfold badQ, wQ; case self; reflexivity).
      rewrite Q0. destruct (fi_view I) as [V1 V2]. destruct (fs_calc_column g_col f c) as [r|] eqn:Ec; [|discriminate]. cbn [bind] in E. inversion E; subst f'.
      unfold fs_calc_column in Ec. rewrite V1 in Ec. unfold getitem in Ec. rewrite nth_error_windowed in Ec.
      destruct (Nat.ltb_spec c (length (badS invalid m W H) + 1 - m)) as [C|C]; [|discriminate]. cbn [bind] in Ec.
      fold (spoiled m (badS invalid m W H) c) in Ec. destruct (spoiled m (badS invalid m W H) c).
      + inversion Ec; subst r. cbn [fst]. split; [exact I|reflexivity].
      + destruct (g_col (fs_g f) c) as [r'|] eqn:Eg; [|discriminate]. cbn [bind] in Ec. destruct (set_inf (snd r') (rb_view (fs_qmask f))); [|discriminate].
        cbn [bind] in Ec. inversion Ec; subst r. cbn [fst foldM gstep]. rewrite Eg. cbn [bind]. split; [apply fs_inv_with; exact I|reflexivity].
    - assert (Q0 : (if self then badS invalid m W H else badQ invalid m self W Wq H) = badQ invalid m self W Wq H) by (unfold badQ, wQ; case self; reflexivity).
      rewrite Q0. destruct (fs_calc_diagonal g_diag f d) as [r|] eqn:Ec; [|discriminate]. cbn [bind] in E. inversion E; subst f'.
      unfold fs_calc_diagonal, filter_diagonal in Ec. destruct (g_diag (fs_g f) d) as [r'|] eqn:Eg; [|discriminate]. cbn [bind fst snd] in Ec.
      match type of Ec with context [if ?b then ?x else ?y] => destruct (if b then x else y) as [v|]; [|discriminate] end.
      cbn [bind fst snd] in Ec. inversion Ec; subst r. cbn [fst bind]. split; [apply fs_inv_with; exact I|reflexivity].
  Qed.
  Lemma fs_run_inv H0 f0 H f : fs_inv (badS invalid m W H0) (badQ invalid m self W Wq H0) f0 -> Forall (proper_call invalid m) H -> fs_run f0 H = Ok f ->
    fs_inv (badS invalid m W (H0 ++ H)) (badQ invalid m self W Wq (H0 ++ H)) f /\ inner_run (fs_g f0) (passed invalid m W H0 H) = Ok (fs_g f).
  Proof. clear - Hm HW HWq.
    revert H0 f0. induction H as [|o H IH]; intros H0 f0 I Hp E.
    - rewrite app_nil_r. inversion E; subst. auto.
    - inversion Hp as [|? ? P1 P2]; subst. unfold fs_run, grun in E. cbn [foldM] in E.
      match type of E with context [bind ?x _] => destruct x as [f1|] eqn:E1; [|discriminate] end. cbn [bind] in E.
      destruct (@fs_step_inv H0 f0 o f1 I P1 E1) as [I1 R1]. destruct (IH (H0 ++ [o]) f1 I1 P2 E) as [I2 R2]. rewrite <- app_assoc in I2. split; [exact I2|].
      cbn [passed]. unfold inner_run, grun in *. rewrite foldM_app, R1. exact R2.
  Qed.
  Variable memb : nat -> bool.
  Lemma fs_prepared (prepare : nat -> nat -> option nat -> res G) sf g : (1 <= sf)%Q -> (sf <= 2)%Q -> prepare m W (if self then None else Some Wq) = Ok g ->
    exists f, fs_prepare memb prepare sf m W (if self then None else Some Wq) = Ok f /\ fs_g f = g /\ fs_inv [] [] f.
  Proof. clear - Hm HW HWq.
    intros H1 H2 E. unfold fs_prepare. rewrite (proj2 (Qle_bool_iff _ _) H1), E. cbn [negb bind].
    assert (Z0 : windowed hit m [] = []). { unfold windowed. cbn [length]. replace (0 + 1 - m) with 0 by lia. reflexivity. }
    destruct (@win_empty bool memb (W + 1 - m) sf H1 H2) as (b1 & E1 & W1); [lia|].
    destruct (@win_empty bool memb (W + 1 - m + m - 1) sf H1 H2) as (b2 & E2 & W2); [lia|]. rewrite E1. cbn [bind]. rewrite E2. cbn [bind].
    replace (W + 1 - m + m - 1) with W in W2 by lia.
    revert HWq. case self eqn:Es; intro HWq'.
    - eexists. split; [reflexivity|]. split; [reflexivity|]. constructor; cbn [fs_m fs_self fs_is fs_ms fs_iq fs_mq]; rewrite ?Es, ?Z0; auto.
    - specialize (HWq' eq_refl). destruct (@win_empty bool memb (Wq + 1 - m) sf H1 H2) as (b3 & E3 & W3); [lia|].
      destruct (@win_empty bool memb (Wq + 1 - m + m - 1) sf H1 H2) as (b4 & E4 & W4); [lia|]. rewrite E3. cbn [bind]. rewrite E4. cbn [bind].
      replace (Wq + 1 - m + m - 1) with Wq in W4 by lia.
      eexists. split; [reflexivity|]. split; [reflexivity|]. constructor; cbn [fs_m fs_self fs_is fs_ms fs_iq fs_mq]; rewrite ?Es, ?Z0; auto.
  Qed.
End Gen.

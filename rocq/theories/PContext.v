(** * PContext: proofs about the static context manager of MContext.v *)
From Coq Require Import Permutation Sorted.
From Verif Require Import Np NpFacts Mat SLog PLog MContext SContext PSort.
Set Implicit Arguments.
Open Scope nat_scope.

Lemma enumerate_flattened_ok input : forall i,
  enumerate_flattened i input = concat (mapi_from (fun i el => map (fun r => (i, r)) (el_ranges el)) i input).
Proof.
  induction input as [|el input IH]; intro i; [reflexivity|]. cbn [enumerate_flattened mapi_from concat]. rewrite IH. f_equal.
  destruct el; reflexivity.
Qed.

Lemma to_ctxs_ok input : to_ctxs (enumerate_flattened 0 input) = filter (fun c => (c_start c <? c_stop c)%Z) (all_given input).
Proof.
  unfold to_ctxs, all_given, mapi. rewrite enumerate_flattened_ok. generalize 0 as i.
  induction input as [|el input IH]; intro i; [reflexivity|]. cbn [mapi_from concat]. rewrite !filter_app, map_app, IH. f_equal.
  induction (el_ranges el) as [|r rs IHr]; [reflexivity|]. cbn [map filter fst snd]. unfold c_start at 1, c_stop at 1. cbn [fst snd].
  destruct (r_start r <? r_stop r)%Z; [cbn [map fst snd]; f_equal; exact IHr|exact IHr].
Qed.

Lemma all_given_in input s e id : In (s, e, id) (all_given input) <-> given input s e id.
Proof.
  unfold all_given. rewrite in_concat. split.
  - intros (l & Hl & Hi). apply in_mapi in Hl. destruct Hl as (k & el & Hk & ->).
    apply in_map_iff in Hi. destruct Hi as (r & E & Hr). injection E as <- <- <-. exists el, r. auto.
  - intros (el & r & Hk & Hr & <- & <-). eexists. split; [apply in_mapi; exists id, el; split; [exact Hk|reflexivity]|].
    apply in_map_iff. exists r. auto.
Qed.

Lemma verify_ok input : (verify_ranges (enumerate_flattened 0 input) = Ok tt /\ ranges_valid input) \/
  (verify_ranges (enumerate_flattened 0 input) = Err RuntimeError /\ ~ ranges_valid input).
Proof.
  unfold verify_ranges. rewrite enumerate_flattened_ok. fold (mapi (fun i el => map (fun r => (i, r)) (el_ranges el)) input).
  assert (G : forall x, In x (concat (mapi (fun i el => map (fun r => (i, r)) (el_ranges el)) input)) <->
     exists el, nth_error input (fst x) = Some el /\ In (snd x) (el_ranges el)).
  { intros [i r]. rewrite in_concat. cbn [fst snd]. split.
    - intros (l & Hl & Hi). apply in_mapi in Hl. destruct Hl as (k & el & Hk & ->). apply in_map_iff in Hi.
      destruct Hi as (r' & E & Hr). injection E as <- <-. eauto.
    - intros (el & Hk & Hr). eexists. split; [apply in_mapi; exists i, el; split; [exact Hk|reflexivity]|]. apply in_map_iff. eauto. }
  destruct (existsb _ _) eqn:E.
  - right. split; [reflexivity|]. intro V. apply existsb_exists in E. destruct E as (x & Hx & Hb). apply G in Hx.
    destruct Hx as (el & Hk & Hr). destruct (V el (snd x)) as [V1 V2]; [eapply nth_error_In; exact Hk|exact Hr|].
    rewrite V1 in Hb. cbn in Hb. destruct (Z.ltb_spec (r_start (snd x)) 0); [lia|discriminate].
  - left. split; [reflexivity|]. intros el r Hel Hr. apply In_nth_error in Hel. destruct Hel as [i Hi].
    assert (Hx : In (i, r) (concat (mapi (fun i el => map (fun r => (i, r)) (el_ranges el)) input))) by (apply G; eauto).
    destruct (Z.eqb_spec (r_step r) 1) as [H1|H1]; destruct (Z.ltb_spec (r_start r) 0) as [H2|H2]; try (split; [assumption|lia]);
      exfalso; apply (Bool.not_true_iff_false (existsb (fun x => negb (r_step (snd x) =? 1)%Z || (r_start (snd x) <? 0)%Z) (concat (mapi (fun i el => map (fun r => (i, r)) (el_ranges el)) input)))) in E; apply E; apply existsb_exists; exists (i, r); (split; [exact Hx|]); cbn [snd]; apply orb_true_iff; rewrite ?negb_true_iff, ?Z.eqb_neq, ?Z.ltb_lt; auto.
Qed.

(** [array[argsort(keys)]] is a sorted permutation of the array *)
Lemma take_order_ok argsort (key : ctx -> Z) l : sorts argsort ->
  exists l', take_order l (argsort (map key l)) = Ok l' /\ Permutation l l' /\ StronglySorted (fun a b => (key a <= key b)%Z) l'.
Proof.
  intro Hs. destruct (Hs (map key l)) as [HP HO]. rewrite map_length in HP. set (order := argsort (map key l)) in *.
  assert (Hin : forall i, In i order -> i < length l) by (intros i Hi; apply (Permutation_in _ HP), in_seq in Hi; lia).
  destruct (@mapM_ok _ _ (getitem l) order) as (l' & E & Ll & N).
  { intros i Hi. destruct (@nth_error_lt_some _ l i (Hin i Hi)) as [x Hx]. exists x. apply getitem_ok, Hx. }
  exists l'. split; [exact E|]. split.
  - destruct l as [|d l0] eqn:El.
    + assert (order = []) as Eo by (apply Permutation_nil, Permutation_sym; exact HP). rewrite Eo in Ll. destruct l'; [constructor|discriminate].
    + rewrite <- El in *. clear El.
      assert (E' : l' = map (fun i => nth i l d) order).
      { apply nth_error_ext. intro p. rewrite nth_error_map. destruct (nth_error order p) as [i|] eqn:Ei.
        - destruct (N p i Ei) as (y & Hy & Ey). rewrite Hy. cbn. f_equal. apply getitem_ok in Ey. symmetry. apply nth_error_nth, Ey.
        - apply nth_error_None in Ei. apply nth_error_None. lia. }
      rewrite E'. rewrite (Permutation_map (fun i => nth i l d) HP). clear. 
      assert (E : map (fun i => nth i l d) (seq 0 (length l)) = l).
      { apply nth_error_ext. intro p. rewrite nth_error_map, nth_error_seq. destruct (Nat.ltb_spec p (length l)).
        - cbn. symmetry. apply nth_error_nth'. lia.
        - symmetry. apply nth_error_None. lia. }
      rewrite E. reflexivity.
  - assert (G : forall p q x y, p < q -> nth_error l' p = Some x -> nth_error l' q = Some y -> (key x <= key y)%Z).
    { intros p q x y Hpq Hx Hy.
      destruct (@nth_error_lt_some _ order p) as [i Hi]; [rewrite <- Ll; eapply nth_error_some_lt; exact Hx|].
      destruct (@nth_error_lt_some _ order q) as [j Hj]; [rewrite <- Ll; eapply nth_error_some_lt; exact Hy|].
      destruct (N p i Hi) as (x' & Hx' & Ex). destruct (N q j Hj) as (y' & Hy' & Ey). apply getitem_ok in Ex. apply getitem_ok in Ey.
      apply (HO p q i j); auto; rewrite nth_error_map.
      - rewrite Ex. cbn. congruence.
      - rewrite Ey. cbn. congruence. }
    clear - G. induction l' as [|x l' IH]; constructor.
    + apply IH. intros p q a b Hpq Ha Hb. apply (G (S p) (S q)); auto. lia.
    + apply Forall_forall. intros y Hy. apply In_nth_error in Hy. destruct Hy as [q Hq]. apply (G 0 (S q)); auto. lia.
Qed.

Lemma firstn_sorted_filter {U} (key : U -> Z) v l : StronglySorted (fun a b => (key a <= key b)%Z) l ->
  firstn (searchsorted_left (map key l) v) l = filter (fun c => (key c <? v)%Z) l.
Proof.
  unfold searchsorted_left. induction 1 as [|x l HS IH HF]; [reflexivity|]. cbn [map filter].
  destruct (Z.ltb_spec (key x) v); [cbn [length firstn]; f_equal; exact IH|].
  assert (E : forall l, Forall (fun b => (key x <= key b)%Z) l -> filter (fun c => (key c <? v)%Z) l = [] /\ filter (fun z => (z <? v)%Z) (map key l) = []).
  { clear - H. induction 1 as [|y l Hy _ [IH1 IH2]]; [auto|]. cbn [map filter]. destruct (Z.ltb_spec (key y) v); [lia|auto]. }
  destruct (E l HF) as [E1 E2]. rewrite E1, E2. reflexivity.
Qed.
Lemma skipn_sorted_filter {U} (key : U -> Z) v l : StronglySorted (fun a b => (key a <= key b)%Z) l ->
  skipn (searchsorted_right (map key l) v) l = filter (fun c => (v <? key c)%Z) l.
Proof.
  unfold searchsorted_right. induction 1 as [|x l HS IH HF]; [reflexivity|]. cbn [map filter].
  destruct (Z.leb_spec (key x) v).
  - destruct (Z.ltb_spec v (key x)); [lia|]. cbn [length skipn]. exact IH.
  - destruct (Z.ltb_spec v (key x)); [|lia].
    assert (E : forall l, Forall (fun b => (key x <= key b)%Z) l -> filter (fun c => (v <? key c)%Z) l = l /\ filter (fun z => (z <=? v)%Z) (map key l) = []).
    { clear - H. induction 1 as [|y l Hy _ [IH1 IH2]]; [auto|]. cbn [map filter]. destruct (Z.ltb_spec v (key y)); [|lia].
      destruct (Z.leb_spec (key y) v); [lia|]. rewrite IH1, IH2. auto. }
    destruct (E l HF) as [E1 E2]. rewrite E1, E2. reflexivity.
Qed.

Lemma filter_perm {U} (f : U -> bool) l l' : Permutation l l' -> Permutation (filter f l) (filter f l').
Proof.
  induction 1 as [|x l l' _ IH|x y l|l1 l2 l3 _ IH1 _ IH2]; cbn [filter]; auto.
  - destruct (f x); auto.
  - destruct (f x), (f y); auto. apply perm_swap.
  - etransitivity; eassumption.
Qed.
Lemma filter_id {U} (f : U -> bool) l : (forall x, In x l -> f x = true) -> filter f l = l.
Proof. induction l as [|x l IH]; intro H; [reflexivity|]. cbn [filter]. rewrite (H x (or_introl eq_refl)), IH; [reflexivity|]. intros y Hy. apply H. right; exact Hy. Qed.
Lemma filter_filter {U} (f g : U -> bool) l : filter f (filter g l) = filter (fun x => g x && f x) l.
Proof. induction l as [|x l IH]; [reflexivity|]. cbn [filter]. destruct (g x); cbn [filter andb]; rewrite IH; reflexivity. Qed.

(** What a successfully created manager contains *)
Record gsm_inv (series query : list ctx_el) (g : gsm) : Prop := {
  gi_sv : ranges_valid series;
  gi_qv : ranges_valid query;
  gi_series : g_series g = filter (fun c => (c_start c <? c_stop c)%Z) (all_given series);
  gi_query : g_query g = filter (fun c => (c_start c <? c_stop c)%Z) (all_given query);
  gi_ne : g_query g <> [];
  gi_start : Permutation (g_query g) (g_sstart g) /\ StronglySorted (fun a b => (c_start a <= c_start b)%Z) (g_sstart g);
  gi_stop : Permutation (g_query g) (g_sstop g) /\ StronglySorted (fun a b => (c_stop a <= c_stop b)%Z) (g_sstop g)
}.

Definition query_input (series : list ctx_el) (query : option (list ctx_el)) : list ctx_el :=
  match query with None => series | Some q => q end.

Lemma gsm_new_ok argsort series query g : sorts argsort -> gsm_new argsort series query = Ok g ->
  gsm_inv series (query_input series query) g.
Proof.
  intros Hs. unfold gsm_new. destruct (verify_ok series) as [[-> Vs]|[-> _]]; [|discriminate]. cbn [bind].
  assert (Go : forall q, ranges_valid q -> 
     (match to_ctxs (enumerate_flattened 0 q) with
      | [] => Err IndexError
      | _ :: _ => do s1 <- take_order (to_ctxs (enumerate_flattened 0 q)) (argsort (map c_start (to_ctxs (enumerate_flattened 0 q))));
           do s2 <- take_order (to_ctxs (enumerate_flattened 0 q)) (argsort (map c_stop (to_ctxs (enumerate_flattened 0 q))));
           Ok (mkGsm (to_ctxs (enumerate_flattened 0 series)) (to_ctxs (enumerate_flattened 0 q)) s1 s2) end) = Ok g -> gsm_inv series q g).
  { intros q Vq. rewrite !to_ctxs_ok. set (qc := filter _ (all_given q)). intro E.
    destruct (take_order_ok c_start qc Hs) as (s1 & E1 & P1 & S1). destruct (take_order_ok c_stop qc Hs) as (s2 & E2 & P2 & S2).
    assert (Hne : qc <> []) by (intro H; rewrite H in E; discriminate).
    assert (E' : Ok (mkGsm (filter (fun c => (c_start c <? c_stop c)%Z) (all_given series)) qc s1 s2) = Ok g).
    { rewrite <- E. destruct qc as [|c qc'] eqn:Eq; [congruence|]. rewrite E1. cbn [bind]. rewrite E2. reflexivity. }
    injection E' as <-. constructor; cbn; auto. }
  destruct query as [q|]; cbn [query_input].
  - destruct (verify_ok q) as [[-> Vq]|[-> _]]; [|discriminate]. cbn [bind]. apply Go, Vq.
  - cbn [bind]. apply Go, Vs.
Qed.

Lemma gsm_new_exists argsort series query : sorts argsort ->
  ranges_valid series -> ranges_valid (query_input series query) ->
  (exists s e id, given (query_input series query) s e id /\ (s < e)%Z) ->
  exists g, gsm_new argsort series query = Ok g.
Proof.
  intros Hs Vs Vq (s & e & id & Hg & Hse). unfold gsm_new. destruct (verify_ok series) as [[-> _]|[_ H]]; [|contradiction]. cbn [bind].
  assert (E : (match query with None => Ok series | Some q => do _ <- verify_ranges (enumerate_flattened 0 q); Ok q end) = Ok (query_input series query)).
  { destruct query as [q|]; [|reflexivity]. cbn [query_input] in *. destruct (verify_ok q) as [[-> _]|[_ H]]; [reflexivity|contradiction]. }
  rewrite E. cbn [bind]. rewrite (to_ctxs_ok (query_input series query)). set (qc := filter _ (all_given (query_input series query))).
  destruct (take_order_ok c_start qc Hs) as (s1 & E1 & _). destruct (take_order_ok c_stop qc Hs) as (s2 & E2 & _).
  assert (Hin : In (s, e, id) qc) by (apply filter_In; split; [apply all_given_in, Hg|apply Z.ltb_lt, Hse]).
  destruct qc as [|c qc'] eqn:Eq; [destruct Hin|]. rewrite E1. cbn [bind]. rewrite E2. cbn [bind]. eauto.
Qed.

Lemma gsm_pos series query g c : gsm_inv series query g -> In c (g_query g) -> (0 <= c_start c < c_stop c)%Z.
Proof.
  intros I Hc. rewrite (gi_query I) in Hc. apply filter_In in Hc. destruct Hc as [Hc Hlt]. apply Z.ltb_lt in Hlt. split; [|exact Hlt].
  destruct c as [[s e] id]. apply all_given_in in Hc. destruct Hc as (el & r & Hel & Hr & <- & <-).
  apply (gi_qv I el r); [eapply nth_error_In; exact Hel|exact Hr].
Qed.

Lemma pyget_last {U} (l : list U) x : pyget (l ++ [x]) (-1) = Ok x.
Proof.
  unfold pyget. rewrite app_length. cbn [length]. destruct (Z.ltb_spec (-1) (- Z.of_nat (length l + 1))); [lia|].
  destruct (Z.leb_spec (Z.of_nat (length l + 1)) (-1)); [lia|]. cbn [orb]. change (-1 <? 0)%Z with true. cbv iota.
  replace (Z.to_nat (-1 + Z.of_nat (length l + 1))) with (length l) by lia. apply getitem_ok. rewrite nth_error_app2, Nat.sub_diag by lia. reflexivity.
Qed.

Lemma gsm_query_ok series query g a b : gsm_inv series query g ->
  exists l, gsm_query g a b = Ok l /\ Permutation l (filter (intersects a b) (all_given query)).
Proof.
  intro I. destruct (gi_start I) as [P1 S1]. destruct (gi_stop I) as [P2 S2]. unfold gsm_query.
  destruct (g_sstart g) as [|c1 l1] eqn:E1.
  { exfalso. apply (gi_ne I). apply Permutation_nil, Permutation_sym. exact P1. }
  destruct (rev (g_sstop g)) as [|c2 l2] eqn:E2.
  { exfalso. apply (gi_ne I). apply (f_equal (@rev _)) in E2. rewrite rev_involutive in E2. rewrite E2 in P2. apply Permutation_nil, Permutation_sym. exact P2. }
  assert (E2' : g_sstop g = rev l2 ++ [c2]) by (apply (f_equal (@rev _)) in E2; rewrite rev_involutive in E2; exact E2).
  cbn [getitem nth_error bind]. rewrite E2', pyget_last. cbn [bind].
  assert (Hmin : forall c, In c (g_query g) -> (c_start c1 <= c_start c)%Z).
  { intros c Hc. apply (Permutation_in _ P1) in Hc. destruct Hc as [->|Hc]; [lia|]. inversion S1 as [|? ? _ HF]; subst. rewrite Forall_forall in HF. apply HF, Hc. }
  assert (Hmax : forall c, In c (g_query g) -> (c_stop c <= c_stop c2)%Z).
  { intros c Hc. apply (Permutation_in _ P2) in Hc. rewrite E2' in Hc, S2. apply in_app_or in Hc. destruct Hc as [Hc|[->|[]]]; [|lia].
    clear - Hc S2. induction (rev l2) as [|x l IH]; [destruct Hc|]. cbn [app] in S2. inversion S2 as [|? ? S3 HF]; subst. destruct Hc as [->|Hc].
    - rewrite Forall_forall in HF. apply HF, in_or_app. right; left; reflexivity.
    - apply IH; assumption. }
  assert (Hpos : forall c, In c (g_query g) -> (0 <= c_start c < c_stop c)%Z) by (intros c Hc; eapply gsm_pos; eassumption).
  assert (HQ : filter (intersects a b) (all_given query) = filter (fun c => (c_start c <? b)%Z && (a <? c_stop c)%Z) (g_query g)).
  { rewrite (gi_query I), filter_filter. apply filter_ext. intro c. unfold intersects. rewrite andb_assoc. reflexivity. }
  rewrite HQ.
  destruct (Z.leb_spec a (c_start c1)) as [Ha|Ha]; destruct (Z.leb_spec (c_stop c2) b) as [Hb|Hb]; cbn [andb];
    try (eexists; split; [reflexivity|]; rewrite filter_id; [reflexivity|]; intros c Hc; specialize (Hmin c Hc); specialize (Hmax c Hc); specialize (Hpos c Hc); apply andb_true_iff; rewrite !Z.ltb_lt; lia).
  all: destruct (Z.eqb_spec a 0) as [->|Ha0].
  (* start = 0 *)
  1,3,5: eexists; split; [reflexivity|]; rewrite (firstn_sorted_filter c_start b S1), filter_filter; exact (Permutation_sym (filter_perm _ P1)).
  (* stop past the last end *)
  2: { eexists; split; [reflexivity|]. rewrite E2' in S2. rewrite (skipn_sorted_filter c_stop a S2), filter_filter. rewrite <- E2'.
       rewrite (filter_ext _ (fun c => (c_start c <? b)%Z && (a <? c_stop c)%Z)) by (intro c; apply andb_comm).
       exact (Permutation_sym (filter_perm _ P2)). }
  all: eexists; split; [reflexivity|]; reflexivity.
Qed.

Lemma gsm_series_ok series query g a b : gsm_inv series query g -> g_series g <> [] ->
  gsm_series g a b = Ok (filter (intersects a b) (all_given series)).
Proof.
  intros I Hne. unfold gsm_series. destruct (g_series g) as [|c l] eqn:E; [congruence|]. rewrite <- E, (gi_series I), filter_filter.
  f_equal. apply filter_ext. intro x. unfold intersects. rewrite andb_assoc. reflexivity.
Qed.

Lemma max_id_le l c : In c l -> c_id c <= max_id l.
Proof. induction l as [|x l IH]; intros []; cbn [max_id fold_right]; [subst; lia|]. specialize (IH H). unfold max_id in IH. lia. Qed.
Lemma max_id_in l : l <> [] -> exists c, In c l /\ c_id c = max_id l.
Proof.
  induction l as [|x l IH]; [congruence|]. intros _.
  change (max_id (x :: l)) with (Nat.max (c_id x) (max_id l)). destruct l as [|y l].
  - exists x. split; [left; reflexivity|]. cbn. lia.
  - destruct IH as (c & Hc & E); [discriminate|].
    destruct (Nat.le_gt_cases (c_id x) (max_id (y :: l))).
    + exists c. split; [right; exact Hc|lia].
    + exists x. split; [left; reflexivity|lia].
Qed.

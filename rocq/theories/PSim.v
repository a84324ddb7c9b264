(** * PSim: the generators on two kinds of numbers.

    If the data of two runs are related element by element, and the operations keep the relation, then the runs raise the same
    exceptions and give related results. *)
From Coq Require Import QArith.
From Verif Require Import Np NpFacts MRing PRing MUtil MArith MCache.
Set Implicit Arguments.
Open Scope nat_scope.

(** Both raise the same exception, or both give related results *)
Definition res_sim {S T} (R : S -> T -> Prop) (r : res S) (r' : res T) : Prop :=
  match r, r' with Ok s, Ok t => R s t | Err e, Err e' => e = e' | _, _ => False end.
Lemma bind_sim {S S' T T'} (R : S -> S' -> Prop) (Q : T -> T' -> Prop) r r' k k' :
  res_sim R r r' -> (forall s s', R s s' -> res_sim Q (k s) (k' s')) -> res_sim Q (bind r k) (bind r' k').
Proof. destruct r, r'; cbn; intros H K; try contradiction; [apply K, H|exact H]. Qed.
Lemma res_sim_impl {S T} (R Q : S -> T -> Prop) r r' : (forall s t, R s t -> Q s t) -> res_sim R r r' -> res_sim Q r r'.
Proof. destruct r, r'; cbn; auto. Qed.
Lemma res_sim_ok {S T} (R : S -> T -> Prop) r s t : r = Ok s -> res_sim R (Ok s) (Ok t) -> res_sim R r (Ok t).
Proof. intros -> H. exact H. Qed.

Lemma res_sim_and {S T} (R Q : S -> T -> Prop) r r' : res_sim R r r' -> (forall s t, r = Ok s -> r' = Ok t -> R s t -> Q s t) -> res_sim Q r r'.
Proof. destruct r, r'; cbn; intros H K; try contradiction; [apply K; auto|exact H]. Qed.

(** ** Lists *)
Notation "'all2'" := Forall2.
Lemma all2_length {S T} (R : S -> T -> Prop) l l' : all2 R l l' -> length l = length l'.
Proof. induction 1; cbn; congruence. Qed.
Lemma all2_impl {S T} (R Q : S -> T -> Prop) l l' : (forall x y, R x y -> Q x y) -> all2 R l l' -> all2 Q l l'.
Proof. intros H. induction 1; constructor; auto. Qed.
Lemma all2_any {S T} (l : list S) : forall l' : list T, length l = length l' -> all2 (fun _ _ => True) l l'.
Proof. induction l as [|x l IH]; intros [|y l'] E; try discriminate; constructor; auto. Qed.
Lemma all2_same {S} (R : S -> S -> Prop) l : (forall x, In x l -> R x x) -> all2 R l l.
Proof. induction l as [|x l IH]; intro H; constructor; [apply H; left; reflexivity|apply IH; intros y Hy; apply H; right; exact Hy]. Qed.

Section Lists.
  Context {S T : Type} (R : S -> T -> Prop).
  Implicit Types (l : list S) (k : list T).
  Lemma sim_firstn n l k : all2 R l k -> all2 R (firstn n l) (firstn n k).
  Proof. intro H. revert n. induction H; intros [|n]; cbn; constructor; auto. Qed.
  Lemma sim_skipn n l k : all2 R l k -> all2 R (skipn n l) (skipn n k).
  Proof. intro H. revert n. induction H; intros [|n]; cbn; auto. Qed.
  Lemma sim_lslice l k a b : all2 R l k -> all2 R (lslice l a b) (lslice k a b).
  Proof. intro H. apply sim_firstn, sim_skipn, H. Qed.
  Lemma sim_slice l k a b : all2 R l k -> all2 R (slice l a b) (slice k a b).
  Proof. intro H. unfold slice. rewrite (all2_length H). apply sim_lslice, H. Qed.
  Lemma sim_slice_from l k a : all2 R l k -> all2 R (slice_from l a) (slice_from k a).
  Proof. intro H. unfold slice_from. rewrite (all2_length H). apply sim_skipn, H. Qed.
  Lemma sim_lastn n l k : all2 R l k -> all2 R (lastn n l) (lastn n k).
  Proof. intro H. unfold lastn. rewrite (all2_length H). apply sim_skipn, H. Qed.
  Lemma sim_rev l k : all2 R l k -> all2 R (rev l) (rev k).
  Proof. induction 1; cbn; [constructor|]. apply Forall2_app; [assumption|]. constructor; [assumption|constructor]. Qed.
  Lemma sim_repeat x y n : R x y -> all2 R (repeat x n) (repeat y n).
  Proof. intro H. induction n; constructor; assumption. Qed.
  Lemma sim_splice l k a v w : all2 R l k -> all2 R v w -> all2 R (splice l a v) (splice k a w).
  Proof. intros H G. unfold splice. rewrite (all2_length G). apply Forall2_app; [apply sim_firstn, H|]. apply Forall2_app; [exact G|apply sim_skipn, H]. Qed.
  Lemma sim_set_slice l k a b v w : all2 R l k -> all2 R v w -> res_sim (all2 R) (set_slice l a b v) (set_slice k a b w).
  Proof.
    intros H G. unfold set_slice. rewrite (all2_length H), (all2_length G). destruct (_ =? _); [apply sim_splice; assumption|].
    destruct G as [|x y v w Hx G]; [reflexivity|]. destruct G as [|x' y' v w Hx' G]; [|reflexivity]. apply sim_splice; [exact H|apply sim_repeat, Hx].
  Qed.
  Lemma sim_setitem l k i x y : all2 R l k -> R x y -> res_sim (all2 R) (setitem l i x) (setitem k i y).
  Proof. intros H G. unfold setitem. rewrite (all2_length H). destruct (_ <? _); [|reflexivity]. apply sim_splice; [exact H|]. constructor; [exact G|constructor]. Qed.
  Lemma sim_nth l k i : all2 R l k -> match nth_error l i, nth_error k i with Some x, Some y => R x y | None, None => True | _, _ => False end.
  Proof. intro H. revert i. induction H; intros [|i]; cbn; try exact I; [assumption|apply IHForall2]. Qed.
  Lemma sim_getitem l k i : all2 R l k -> res_sim R (getitem l i) (getitem k i).
  Proof. intro H. pose proof (sim_nth i H) as G. unfold getitem. destruct (nth_error l i), (nth_error k i); try contradiction; [exact G|reflexivity]. Qed.
End Lists.
Lemma sim_map {S T S' T'} (R : S -> T -> Prop) (Q : S' -> T' -> Prop) f g l k : (forall x y, R x y -> Q (f x) (g y)) -> all2 R l k -> all2 Q (map f l) (map g k).
Proof. intros H. induction 1; cbn; constructor; auto. Qed.
Lemma sim_zip {S T U S' T' U'} (P : S -> S' -> Prop) (Q : T -> T' -> Prop) (V : U -> U' -> Prop) f g : (forall x x' y y', P x x' -> Q y y' -> V (f x y) (g x' y')) ->
  forall a a' b b', all2 P a a' -> all2 Q b b' -> all2 V (zip_with f a b) (zip_with g a' b').
Proof. intros H a a' b b' HA. revert b b'. induction HA as [|x x' a a' Hx HA IH]; intros b b' HB; [constructor|]. destruct HB as [|y y' b b' Hy HB]; cbn; constructor; auto. Qed.
Lemma sim_bop {S T U S' T' U'} (P : S -> S' -> Prop) (Q : T -> T' -> Prop) (V : U -> U' -> Prop) f g : (forall x x' y y', P x x' -> Q y y' -> V (f x y) (g x' y')) ->
  forall a a' b b', all2 P a a' -> all2 Q b b' -> res_sim (all2 V) (bop f a b) (bop g a' b').
Proof.
  intros H a a' b b' HA HB. unfold bop. rewrite (all2_length HA), (all2_length HB). destruct (_ =? _); [eapply sim_zip; eassumption|].
  destruct HA as [|x x' a a' Hx HA].
  - destruct HB as [|y y' b b' Hy HB]; [reflexivity|]. destruct HB; [constructor|reflexivity].
  - destruct HA as [|x1 x1' a a' Hx1 HA].
    + eapply sim_map; [|exact HB]. auto.
    + destruct HB as [|y y' b b' Hy HB]; [reflexivity|]. destruct HB; [|reflexivity]. cbn [res_sim]. constructor; [auto|]. constructor; [auto|].
      eapply sim_map; [|exact HA]. auto.
Qed.
Lemma sim_combine {S T S' T'} (P : S -> S' -> Prop) (Q : T -> T' -> Prop) a a' b b' : all2 P a a' -> all2 Q b b' ->
  all2 (fun p q => P (fst p) (fst q) /\ Q (snd p) (snd q)) (combine a b) (combine a' b').
Proof. intro HA. revert b b'. induction HA as [|x x' a a' Hx HA IH]; intros b b' HB; [constructor|]. destruct HB; cbn; constructor; auto. Qed.
Lemma sim_windows {S T} (R : S -> T -> Prop) l k m : all2 R l k -> res_sim (all2 (fun w v => 0 < length w /\ length w = m /\ all2 R w v)) (windows l m) (windows k m).
Proof.
  intro H. unfold windows. rewrite (all2_length H). destruct (Nat.eqb_spec m 0); cbn [orb]; [reflexivity|]. destruct (Nat.ltb_spec (length k) m); [reflexivity|]. cbn [res_sim].
  apply sim_map with (R := fun i j => i = j /\ i < length k - m + 1).
  - intros i j [<- Hi]. pose proof (all2_length H). split; [rewrite firstn_length, skipn_length; lia|]. split; [rewrite firstn_length, skipn_length; lia|]. apply sim_firstn, sim_skipn, H.
  - apply all2_same. intros i Hi. apply in_seq in Hi. split; [reflexivity|lia].
Qed.

(** ** Ring buffers: the same layout, and related elements in the window *)
Definition same_layout {S T} (b : rb S) (b' : rb T) : Prop :=
  length (rb_buf b) = length (rb_buf b') /\ rb_start b = rb_start b' /\ rb_max b = rb_max b' /\ rb_len b = rb_len b' /\ rb_vlo b = rb_vlo b' /\ rb_vhi b = rb_vhi b'.
Definition any2 {S T} (_ : S) (_ : T) : Prop := True.
Lemma any_lengths {S T} (l : list S) (k : list T) : length l = length k -> all2 any2 l k.
Proof. apply all2_any. Qed.
Lemma layout_full {S T} (b : rb S) (b' : rb T) d d' : same_layout b b' -> length d = length d' ->
  res_sim (fun r r' => same_layout (fst r) (fst r') /\ snd r = snd r') (rb_push_full b d) (rb_push_full b' d').
Proof.
  intros (B1 & B2 & B3 & B4 & B5 & B6) Hd. unfold rb_push_full. rewrite B1, B2, B3, B4, Hd. pose proof (any_lengths _ _ B1) as HB. pose proof (any_lengths _ _ Hd) as HD.
  destruct (_ <=? _).
  - assert (HV : all2 any2 (lslice (rb_buf b) (rb_start b' + length d') (rb_start b' + length d' + rb_max b')) (lslice (rb_buf b') (rb_start b' + length d') (rb_start b' + length d' + rb_max b'))) by (apply sim_lslice, HB).
    rewrite (all2_length HV). eapply bind_sim; [apply sim_set_slice; [exact HV|exact HD]|]. intros v v' Hv. cbn [res_sim fst snd]. split; [|reflexivity].
    unfold same_layout. cbn [rb_buf rb_start rb_max rb_len rb_vlo rb_vhi]. split; [|repeat split]. eapply all2_length, sim_splice; [exact HB|exact Hv].
  - destruct (_ <? _).
    + eapply bind_sim; [apply sim_set_slice; [exact HB|apply sim_lslice, HB]|]. intros v v' Hv. eapply bind_sim; [apply sim_set_slice; [exact Hv|exact HD]|]. intros w w' Hw.
      cbn [res_sim fst snd]. split; [|reflexivity]. unfold same_layout. cbn [rb_buf rb_start rb_max rb_len rb_vlo rb_vhi]. split; [apply (all2_length Hw)|repeat split].
    + eapply bind_sim; [apply sim_set_slice; [exact HB|apply sim_slice_from, HD]|]. intros v v' Hv.
      cbn [res_sim fst snd]. split; [|reflexivity]. unfold same_layout. cbn [rb_buf rb_start rb_max rb_len rb_vlo rb_vhi]. split; [apply (all2_length Hv)|repeat split].
Qed.
Lemma layout_push {S T} (b : rb S) (b' : rb T) d d' : same_layout b b' -> length d = length d' ->
  res_sim (fun r r' => same_layout (fst r) (fst r') /\ snd r = snd r') (rb_push b d) (rb_push b' d').
Proof.
  intros HL Hd. pose proof HL as (B1 & B2 & B3 & B4 & B5 & B6). unfold rb_push. rewrite B3, B4, Hd. pose proof (any_lengths _ _ B1) as HB. pose proof (any_lengths _ _ Hd) as HD.
  destruct (_ =? 0); [split; [exact HL|reflexivity]|]. destruct (_ <? _); [|apply layout_full; assumption].
  eapply bind_sim; [apply sim_set_slice; [exact HB|apply sim_firstn, HD]|]. intros v v' Hv.
  match goal with |- context [mkRb v ?a ?n ?l 0 ?h] => assert (HL' : same_layout (mkRb v a n l 0 h) (mkRb v' (rb_start b') n l 0 (Nat.min l (length v')))) end.
  { unfold same_layout. cbn [rb_buf rb_start rb_max rb_len rb_vlo rb_vhi]. rewrite (all2_length Hv). repeat split. exact B2. }
  destruct (_ =? _); [split; [exact HL'|reflexivity]|]. apply layout_full; [exact HL'|]. rewrite !skipn_length. lia.
Qed.

Definition rb_sim {S T} (R : S -> T -> Prop) (b : rb S) (b' : rb T) : Prop :=
  rb_ok b /\ rb_ok b' /\ 0 < rb_max b /\ same_layout b b' /\ all2 R (rb_view b) (rb_view b').
Lemma rb_sim_max {S T} (R : S -> T -> Prop) b b' : rb_sim R b b' -> rb_max b = rb_max b'.
Proof. intros (_ & _ & _ & (_ & _ & H & _) & _). exact H. Qed.
Lemma rb_sim_view {S T} (R : S -> T -> Prop) b b' : rb_sim R b b' -> all2 R (rb_view b) (rb_view b').
Proof. intros (_ & _ & _ & _ & H). exact H. Qed.
Lemma rb_sim_impl {S T} (R Q : S -> T -> Prop) b b' : (forall x y, R x y -> Q x y) -> rb_sim R b b' -> rb_sim Q b b'.
Proof. intros H (A1 & A2 & A3 & A4 & A5). repeat (split; [assumption|]). eapply all2_impl; eassumption. Qed.
Lemma sim_push {S T} (R : S -> T -> Prop) b b' d d' : rb_sim R b b' -> all2 R d d' ->
  res_sim (fun r r' => rb_sim R (fst r) (fst r') /\ snd r = snd r' /\ rb_max (fst r) = rb_max b) (rb_push b d) (rb_push b' d').
Proof.
  intros (A1 & A2 & A3 & A4 & A5) HD. pose proof (layout_push d d' A4 (all2_length HD)) as HL. pose proof A4 as (_ & _ & M & _).
  destruct (@rb_push_cases _ b d A1 A3) as [[_ E]|(_ & c & E & O & V & L & M1)]; destruct (@rb_push_cases _ b' d' A2 ltac:(lia)) as [[_ E']|(_ & c' & E' & O' & V' & L' & M1')]; rewrite E, E' in *; cbn [res_sim fst snd] in HL |- *; try contradiction; [reflexivity|].
  destruct HL as [HL1 HL2]. split; [|split; [exact HL2|exact M1]]. split; [exact O|]. split; [exact O'|]. split; [lia|]. split; [exact HL1|].
  rewrite V, V', <- M. apply sim_lastn, Forall2_app; assumption.
Qed.
Lemma sim_alloc {S T} (R : S -> T -> Prop) mem mem' n sf : (1 <= sf)%Q -> 0 < n ->
  res_sim (fun b b' => rb_sim R b b' /\ rb_max b = n) (rb_alloc mem n sf) (rb_alloc mem' n sf).
Proof.
  intros Hsf Hn. destruct (@rb_alloc_spec _ mem n sf Hsf) as (b & E & O & V & M & C & _), (@rb_alloc_spec _ mem' n sf Hsf) as (b' & E' & O' & V' & M' & C' & _).
  rewrite E, E'. cbn [res_sim]. split; [|exact M]. split; [exact O|]. split; [exact O'|]. split; [lia|]. split; [|rewrite V, V'; constructor].
  unfold rb_alloc in E, E'. destruct (_ <? _)%Z; [discriminate|]. injection E as <-. injection E' as <-. unfold same_layout. cbn. rewrite !map_length. repeat split.
Qed.
Lemma sim_rb_new {S T} (R : S -> T -> Prop) mem mem' d d' shape sf : (1 <= sf)%Q ->
  match d, d' with Some l, Some l' => all2 R l l' /\ 0 < (match shape with Some n => n | None => length l end) | None, None => (forall n, shape = Some n -> 0 < n) | _, _ => False end ->
  res_sim (fun b b' => rb_sim R b b' /\ (forall n, shape = Some n -> rb_max b = n)) (rb_new mem d shape true sf) (rb_new mem' d' shape true sf).
Proof.
  intros Hsf HD. unfold rb_new. destruct d as [l|], d' as [l'|]; try contradiction.
  - destruct HD as [HD Hn]. rewrite <- (all2_length HD). eapply bind_sim; [apply (@sim_alloc S T R); assumption|]. intros b b' [Hb Mb]. eapply bind_sim; [apply sim_push; [exact Hb|exact HD]|].
    intros r r' (Hr & _ & Mr). split; [exact Hr|]. intros n ->. congruence.
  - destruct shape as [n|]; [|reflexivity]. eapply res_sim_impl; [|apply (@sim_alloc S T R); [exact Hsf|apply HD; reflexivity]]. intros b b' [Hb Mb]. split; [exact Hb|]. intros n' En. injection En as <-. exact Mb.
Qed.

(** ** The cached calculation of columns *)
Definition opt_sim {S T} (R : S -> T -> Prop) (x : option S) (y : option T) : Prop :=
  match x, y with Some a, Some b => R a b | None, None => True | _, _ => False end.
Section Cache.
  Context {A B : Type} {NA : NumOps A} {NB : NumOps B}.
  (** relations of data, of first rows, of cached values *)
  Variables rd rf : num A -> num B -> Prop.

  Definition cache_sim (rv : num A -> num B -> Prop) (c : @cache A) (c' : @cache B) : Prop :=
    ch_m c = ch_m c' /\ ch_self c = ch_self c' /\ 0 < ch_m c /\ ch_m c <= rb_max (ch_series c) /\ rb_sim rd (ch_series c) (ch_series c') /\
    (ch_self c = false -> rb_sim rd (ch_qbuf c) (ch_qbuf c')) /\ opt_sim (rb_sim rf) (ch_first c) (ch_first c') /\
    ch_backlog c = ch_backlog c' /\ ch_prev c = ch_prev c' /\ all2 rv (ch_vals c) (ch_vals c').
  Lemma cache_sim_mk (rv : num A -> num B -> Prop) c c' : ch_m c = ch_m c' -> ch_self c = ch_self c' -> 0 < ch_m c -> ch_m c <= rb_max (ch_series c) -> rb_sim rd (ch_series c) (ch_series c') ->
    (ch_self c = false -> rb_sim rd (ch_qbuf c) (ch_qbuf c')) -> opt_sim (rb_sim rf) (ch_first c) (ch_first c') ->
    ch_backlog c = ch_backlog c' -> ch_prev c = ch_prev c' -> all2 rv (ch_vals c) (ch_vals c') -> cache_sim rv c c'.
  Proof. unfold cache_sim. tauto. Qed.
  Lemma cache_sim_impl (rv rv' : num A -> num B -> Prop) c c' : (forall x y, rv x y -> rv' x y) -> cache_sim rv c c' -> cache_sim rv' c c'.
  Proof. intros H (A1 & A2 & A3 & A4 & A5 & A6 & A7 & A8 & A9 & A10). apply cache_sim_mk; try assumption. eapply all2_impl; eassumption. Qed.
  Lemma sim_query rv c c' : cache_sim rv c c' -> all2 rd (rb_view (ch_query c)) (rb_view (ch_query c')).
  Proof. intros (A1 & A2 & A3 & A4 & A5 & A6 & _). unfold ch_query. rewrite <- A2. destruct (ch_self c); apply rb_sim_view; auto. Qed.
  Lemma sim_series rv c c' : cache_sim rv c c' -> all2 rd (rb_view (ch_series c)) (rb_view (ch_series c')).
  Proof. intros (A1 & A2 & A3 & A4 & A5 & _). apply rb_sim_view, A5. Qed.

  Ltac fields := cbn [ch_m ch_self ch_series ch_qbuf ch_first ch_backlog ch_prev ch_vals].
  Definition same_dims (c s : @cache A) : Prop := ch_m s = ch_m c /\ ch_self s = ch_self c /\ rb_max (ch_series s) = rb_max (ch_series c) /\ rb_max (ch_qbuf s) = rb_max (ch_qbuf c).
  Lemma sim_append_s rv c c' d d' : cache_sim rv c c' -> all2 rd d d' -> res_sim (fun s s' => cache_sim rv s s' /\ same_dims c s) (cache_append_s c d) (cache_append_s c' d').
  Proof.
    intros (A1 & A2 & A3 & A4 & A5 & A6 & A7 & A8 & A9 & A10) HD. unfold cache_append_s. eapply bind_sim; [apply sim_push; [exact A5|exact HD]|]. intros [s k] [s' k'] (Hs & Hk & M). cbn [fst snd] in *. subst k'.
    rewrite <- A2, (all2_length HD), <- (rb_sim_max Hs), (all2_length (rb_sim_view Hs)), <- A9, <- A8, <- A1. destruct (ch_self c) eqn:Es; cbn [res_sim].
    - split; [|unfold same_dims; fields; rewrite Es; auto]. apply cache_sim_mk; fields; try assumption; try reflexivity; try (rewrite M; assumption); try discriminate. destruct (k =? 0); [exact A7|exact I].
    - split; [|unfold same_dims; fields; rewrite Es; auto]. apply cache_sim_mk; fields; try assumption; try reflexivity; try (rewrite M; assumption).
  Qed.
  Lemma sim_append_q rv c c' d d' : cache_sim rv c c' -> ch_self c = false -> all2 rd d d' -> res_sim (fun s s' => cache_sim rv s s' /\ same_dims c s) (cache_append_q c d) (cache_append_q c' d').
  Proof.
    intros (A1 & A2 & A3 & A4 & A5 & A6 & A7 & A8 & A9 & A10) Es HD. unfold cache_append_q. eapply bind_sim; [apply sim_push; [exact (A6 Es)|exact HD]|]. intros [s k] [s' k'] (Hs & Hk & M). cbn [fst snd] in *. subst k'.
    cbn [res_sim]. split; [|unfold same_dims; fields; auto]. apply cache_sim_mk; fields; try assumption; try reflexivity; [intros _; exact Hs|]. destruct (k =? 0); [exact A7|exact I].
  Qed.

  Variable m : nat.
  Variable full : list (num A) -> list (num A) -> res (list (num A)).
  Variable full' : list (num B) -> list (num B) -> res (list (num B)).
  Variable term : num A -> num A -> num A.
  Variable term' : num B -> num B -> num B.
  Variables rt r1 : num A -> num B -> Prop.
  Hypothesis Hfull : forall a a' b b', all2 rd a a' -> all2 rd b b' -> length b <= m -> res_sim (all2 rf) (full a b) (full' a' b').
  Hypothesis Hterm : forall x x' y y', rd x x' -> rd y y' -> rt (term x y) (term' x' y').
  Variables mem : nat -> num A.
  Variables mem' : nat -> num B.

  Lemma sim_first rv c c' : cache_sim rv c c' -> ch_m c = m -> res_sim (rb_sim rf) (cache_first full mem c) (cache_first full' mem' c').
  Proof.
    intros C Em. pose proof (sim_query C) as HQ. pose proof (sim_series C) as HV. destruct C as (A1 & A2 & A3 & A4 & A5 & A6 & A7 & A8 & A9 & A10). unfold cache_first. rewrite <- A1, <- A8, <- (rb_sim_max A5).
    assert (L : length (lslice (rb_view (ch_query c)) 0 (ch_m c)) <= m) by (unfold lslice; rewrite firstn_length; lia).
    destruct (ch_first c) as [b|], (ch_first c') as [b'|]; try contradiction.
    - destruct (_ <? _); [|exact A7]. eapply bind_sim; [apply Hfull; [apply sim_slice_from; exact HV|apply sim_lslice; exact HQ|exact L]|]. intros v v' Hv.
      eapply bind_sim; [apply sim_push; [exact A7|exact Hv]|]. intros r r' (Hr & _). exact Hr.
    - eapply bind_sim; [apply Hfull; [exact HV|apply sim_lslice; exact HQ|exact L]|]. intros v v' Hv. eapply res_sim_impl; [|eapply (@sim_rb_new _ _ rf mem mem' (Some v) (Some v')); [vm_compute; discriminate|split; [exact Hv|cbn; lia]]].
      intros b b' [Hb _]. exact Hb.
  Qed.
  Variables rv rv' : num A -> num B -> Prop.
  Hypothesis Hsub : forall x x' y y', rv x x' -> rt y y' -> r1 (fsub x y) (fsub x' y').
  Hypothesis Hadd : forall x x' y y', r1 x x' -> rt y y' -> rv' (fadd x y) (fadd x' y').
  Hypothesis Hvv : forall x x', rv x x' -> rv' x x'.
  Hypothesis Hfv : forall x x', rf x x' -> rv' x x'.
  Lemma sim_col c c' col : cache_sim rv c c' -> ch_m c = m ->
    res_sim (fun r r' => cache_sim rv' (fst r) (fst r') /\ same_dims c (fst r) /\ all2 rv' (snd r) (snd r')) (cache_col full term mem c col) (cache_col full' term' mem' c' col).
  Proof.
    intros C Em. pose proof (sim_query C) as HQ. pose proof (sim_series C) as HV. pose proof (sim_first C Em) as HF. pose proof C as (A1 & A2 & A3 & A4 & A5 & A6 & A7 & A8 & A9 & A10). unfold cache_col.
    rewrite <- A9, <- A1. apply bind_sim with (R := fun r r' => opt_sim (rb_sim rf) (fst (fst r)) (fst (fst r')) /\ snd (fst r) = snd (fst r') /\ all2 rv' (snd r) (snd r')).
    - destruct (negb _ || _).
      + eapply bind_sim; [apply Hfull; [exact HQ|apply sim_lslice; exact HV|unfold lslice; rewrite firstn_length; lia]|]. intros v v' Hv. cbn [res_sim fst snd]. split; [exact A7|]. split; [exact A8|]. eapply all2_impl; eassumption.
      + eapply bind_sim; [exact HF|]. intros fr fr' Hfr. eapply bind_sim; [apply sim_getitem; exact HV|]. intros sb sb' Hsb. eapply bind_sim; [apply sim_getitem; exact HV|]. intros ad ad' Had.
        rewrite (all2_length HQ). eapply bind_sim.
        { eapply sim_bop; [exact Hsub|apply sim_slice; exact A10|]. eapply sim_map; [|apply sim_slice; exact HQ]. intros y y' Hy. apply Hterm; [exact Hsb|exact Hy]. }
        intros v1 v1' H1. eapply bind_sim.
        { eapply sim_bop; [exact Hadd|exact H1|]. eapply sim_map; [|apply sim_skipn; exact HQ]. intros y y' Hy. apply Hterm; [exact Had|exact Hy]. }
        intros v2 v2' H2. rewrite (all2_length A10). eapply bind_sim; [apply sim_set_slice; [eapply all2_impl; [exact Hvv|exact A10]|exact H2]|]. intros v3 v3' H3.
        eapply bind_sim; [apply sim_getitem; apply (rb_sim_view Hfr)|]. intros f f' Hf. eapply bind_sim; [apply sim_setitem; [exact H3|apply Hfv; exact Hf]|]. intros v v' Hv.
        cbn [res_sim fst snd opt_sim]. split; [exact Hfr|]. split; [reflexivity|exact Hv].
    - intros [[fi bl] v] [[fi' bl'] v'] (G1 & G2 & G3). cbn [fst snd] in *. cbn [res_sim fst snd]. split; [|split; [repeat split|exact G3]]. apply cache_sim_mk; fields; try assumption; reflexivity.
  Qed.
End Cache.

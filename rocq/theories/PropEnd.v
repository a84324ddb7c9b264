(** * PropEnd: complete programs that calculate a matrix profile *)
From Coq Require Import QArith Reals Lra Permutation.
From Verif Require Import Np NpFacts Inst Mat SLog MProfile MEuclid MZnorm MFilter MCalc SReal SCalc SMixed SGen SFilter SEnd PArith PMixed PEnd PEuclid PZgeo PZnorm PFilter PFilterReal PropCalc PropZnorm PropFilter.
Set Implicit Arguments.
Open Scope nat_scope.

(** ** C61. Any sequence of calls of calculate_columns and calculate_diagonals *)
Theorem C61_mixed : forall A X G C (g_col : G -> nat -> res (G * list (Np.num A))) g_diag (c_step : C -> event (Np.num A) -> res C) set_order shuffle m (series : list (list X)) query buffer h w
    (a0 : any X G C) gens cs I Fc Fd calls,
  built shuffle m series query buffer h w a0 -> orders_sets set_order -> ids_ok gens cs -> gens_ok I gens ->
  gives g_col I Fc (fun c => c < w) (fun _ => h) -> gives g_diag I Fd (on_matrix h w) (fun d => Z.to_nat (dlen h w d)) -> Forall sensible_call calls ->
  exists p, mixture h w (an_order a0) calls p /\
  (forall a, foldM (any_call g_col g_diag c_step set_order) calls (with_parts a0 gens cs) = Ok a ->
     receive c_step (mixed_calls Fc Fd (is_self query) (ca_tmb (an_calc a0)) (snd p)) cs (ca_cons (an_calc a)) /\
     ca_last (an_calc a) = fst p /\ an_done a = size h w (diags_in (snd p))) /\
  (forall cns, receive c_step (mixed_calls Fc Fd (is_self query) (ca_tmb (an_calc a0)) (snd p)) cs cns ->
     exists a, foldM (any_call g_col g_diag c_step set_order) calls (with_parts a0 gens cs) = Ok a /\ ca_cons (an_calc a) = cns).
Proof. intros. eapply any_mixed; eassumption. Qed.
Print Assumptions C61_mixed.

(** ** Instances *)
Section Instances.
  Variables (set_order : list nat -> list nat) (shuffle : list Z -> list Z).
  Definition zn_program (mem : nat -> num R) (memb : nat -> bool) (noise : R) (sf : Q) :=
    profile_program (zn_calc_column mem) (@zn_calc_diagonal R NumR) (fun m s q => zn_prepare mem memb (Fin noise) sf (Z.to_nat m) s q) set_order shuffle.
  Definition eu_program (mem : nat -> num R) (sf : Q) :=
    profile_program (eu_calc_column mem) (@eu_calc_diagonal R NumR) (fun m s q => eu_prepare mem sf (Z.to_nat m) s q) set_order shuffle.
  (** FilterGenerator(ZNormEuclidean(...)) with the default validity function *)
  Definition zn_filter_program (mem : nat -> num R) (memb : nat -> bool) (noise : R) (sf sf' : Q) :=
    profile_program (fb_calc_column (zn_calc_column mem)) (fb_calc_diagonal (@zn_calc_diagonal R NumR))
      (fun m s q => fb_prepare (@is_not_finite R) (fun m s q => zn_prepare mem memb (Fin noise) sf m s q) sf' (Z.to_nat m) s q) set_order shuffle.
End Instances.

(** Distance between row [r] (of the query) and column [c] (of the series) *)
Definition entry (dist : list R -> list R -> R) (m : nat) (S Q : list R) (r c : nat) : num R := Fin (dist (sub m Q r) (sub m S c)).
Definition entry_or_inf (dist : list R -> list R -> R) (m : nat) (S Q : list (num R)) (r c : nat) : num R := dist_or_inf dist (sub m Q r) (sub m S c).

Lemma Dc_col dist m S Q c : Dc (length Q + 1 - m) (entry dist m S Q) c = col_dist dist m S Q c.
Proof. reflexivity. Qed.
Lemma Dd_diag dist m S Q d : Dd (length Q + 1 - m) (length S + 1 - m) (entry dist m S Q) d = diag_dist dist m S Q d.
Proof. reflexivity. Qed.

(** Calculations only: there is no difference between the data types, nor between ways to append *)
Lemma adapt G (g_col : G -> nat -> res (G * list (num R))) g_diag g_s g_q m (S Q : list R) g0 (T : G -> Prop) :
  (forall H, calc_only m S Q H -> exists g, grun g_col g_diag g_s g_q g0 (map finc H) = Ok g /\ T g) ->
  forall H, calc_only m (fin S) (fin Q) H -> exists g, grun g_col g_diag (fun _ (_ : list (num R)) => Err TypeError) (fun _ _ => Err TypeError) g0 H = Ok g /\ T g.
Proof.
  intros A0 H Hc. destruct (A0 (map vals H)) as (g & E & HT).
  - intros o' Ho. apply in_map_iff in Ho. destruct Ho as (o & <- & Ho). specialize (Hc o Ho). destruct o; cbn [vals]; try contradiction.
    + unfold has_col in *. rewrite !map_length in *. exact Hc.
    + eapply has_diag_length; [..|exact Hc]; rewrite map_length; reflexivity.
  - exists g. split; [|exact HT]. rewrite <- E. unfold grun. clear - Hc. revert g0. induction H as [|o H IH]; intro g0; [reflexivity|]. cbn [map foldM].
    assert (Ho : gstep g_col g_diag (fun _ (_ : list (num R)) => Err TypeError) (fun _ _ => Err TypeError) g0 o = gstep g_col g_diag g_s g_q g0 (finc (vals o))).
    { specialize (Hc o ltac:(left; reflexivity)). destruct o; try contradiction; reflexivity. }
    rewrite Ho. destruct (gstep _ _ _ _ g0 (finc (vals o))); [|reflexivity]. cbn [bind]. apply IH. intros o' Ho'. apply Hc. right. exact Ho'.
Qed.

Lemma proper_map m n nq (series : list (list R)) query buffer : proper_input m n nq series query buffer ->
  proper_input m n nq (map (map (@Fin R)) series) (option_map (map (map (@Fin R))) query) buffer.
Proof.
  assert (H : forall k (rows : list (list R)), rows_have k rows -> rows_have k (map (map (@Fin R)) rows)).
  { intros k rows Hr r Hi. apply in_map_iff in Hi. destruct Hi as (r0 & <- & Hi). rewrite map_length. auto. }
  intros (H1 & H2 & H3 & H4 & H5 & H6). repeat (split; [solve [auto]|]). split.
  - destruct query as [q|]; cbn [option_map]; [|exact H5]. rewrite !map_length. destruct H5. auto.
  - destruct query; exact H6.
Qed.
Lemma channel_map dim (series : list (list R)) query S Q : channel_data dim series query S Q ->
  channel_data dim (map (map (@Fin R)) series) (option_map (map (map (@Fin R))) query) (fin S) (fin Q).
Proof.
  intros [H1 H2]. split; [rewrite nth_error_map, H1; reflexivity|]. destruct query as [q|]; cbn [option_map]; [rewrite nth_error_map, H2; reflexivity|congruence].
Qed.

Lemma inputs_length {X} m n nq (series : list (list X)) query buffer dim S Q : proper_input m n nq series query buffer -> channel_data dim series query S Q -> length S = n /\ length Q = nq.
Proof.
  intros (_ & _ & _ & HR & Hq & _) [H1 H2]. assert (length S = n) by (apply HR; eapply nth_error_In; exact H1). split; [assumption|].
  destruct query as [q|]; [destruct Hq as [Hq _]; apply Hq; eapply nth_error_In; exact H2|]. congruence.
Qed.
Lemma inputs_long {X} m n nq (series : list (list X)) query buffer dim S Q : proper_input m n nq series query buffer -> channel_data dim series query S Q -> 0 < m /\ m <= length S /\ m <= length Q.
Proof. intros HI HC. destruct (inputs_length HI HC) as [-> ->]. destruct HI as (H1 & H2 & H3 & _). auto. Qed.

Definition finss (rows : list (list R)) : list (list (num R)) := map (map (@Fin R)) rows.
(** The profile [res] of the distances [D], after calls that delivered the parts [t]; if these (or the calls) are complete, of the
    whole matrix *)
Definition profile_after (D : nat -> nat -> num R) {T} (query : option T) (m n nq : nat) (buffer : option Z) (calls : list acall) (res : list (num R) * list Z) : Prop :=
  let h := nq + 1 - m in let w := n + 1 - m in let b := buffer_used query (Z.of_nat m) buffer in
  exists order p, Permutation order (diagonals query (Z.of_nat m) buffer h w) /\ mixture h w order calls p /\
    profile_ok D w (fun j r => r < h /\ given (is_self query) b (snd p) r j) res /\
    (complete query (Z.of_nat m) buffer h w (snd p) -> profile_ok D w (outside b h) res) /\
    (completes calls -> profile_ok D w (outside b h) res).

Lemma real_program G (g_col : G -> nat -> res (G * list (num R))) g_diag g_s g_q prepare (dist : list R -> list R -> R) set_order shuffle m n nq (series : list (list R)) query buffer dim S Q calls :
  orders_sets set_order -> (forall l, Permutation (shuffle l) l) -> (forall x y, length x = length y -> dist x y = dist y x) ->
  proper_input m n nq series query buffer -> channel_data dim series query S Q -> Forall sensible_call calls ->
  (forall q, query_or S q = Q -> is_self q = is_self query -> exists g0, prepare (Z.of_nat m) (fin S) (option_map (map (@Fin R)) q) = Ok g0 /\
     forall H, calc_only m S Q H -> exists g, grun g_col g_diag g_s g_q g0 (map finc H) = Ok g /\
       (forall c, c + m <= length S -> exists g', g_col g c = Ok (g', col_dist dist m S Q c)) /\ (forall d, has_diag m S Q d -> exists g', g_diag g d = Ok (g', diag_dist dist m S Q d))) ->
  exists res, profile_program g_col g_diag prepare set_order shuffle (Z.of_nat m) (finss series) (option_map finss query) buffer (Z.of_nat dim) calls = Ok res /\
    profile_after (entry dist m S Q) query m n nq buffer calls res.
Proof.
  intros HSO HSH Hsym HI HC Hcalls HG. set (h := nq + 1 - m). set (w := n + 1 - m). set (b := buffer_used query (Z.of_nat m) buffer).
  pose proof (proper_map HI) as HI'. pose proof (channel_map HC) as HC'. fold finss in HI', HC'.
  assert (LS : length S = n) by (destruct HI as (_ & _ & _ & HR & _); apply HR; eapply nth_error_In; apply HC).
  assert (LQ : length Q = nq).
  { destruct HI as (_ & _ & _ & _ & Hq & _). destruct HC as [_ HQ]. destruct query as [q|]; [destruct Hq as [Hq _]; apply Hq; eapply nth_error_In; exact HQ|]. subst Q. rewrite LS. auto. }
  assert (HN : is_self query = true -> Q = S) by (destruct query; [discriminate|]; intros _; apply HC).
  set (q := if is_self query then None else Some Q). assert (Qq : query_or S q = Q) by (unfold q; destruct (is_self query) eqn:Es; [symmetry; apply HN; reflexivity|reflexivity]).
  destruct HI as (Hm & Hn & Hnq & _).
  destruct (HG q Qq) as (g0 & E0 & A0); [unfold q; destruct (is_self query); reflexivity|].
  assert (Hs : forall X (x y : X), match option_map finss query with Some _ => x | None => y end = if is_self query then y else x) by (intros; destruct query; reflexivity).
  pose proof (@program_all R NumR OrdR (num R) _ g_col g_diag prepare set_order shuffle HSO HSH
    m n nq (finss series) (option_map finss query) buffer dim calls (fin S) (fin Q) g0 (entry dist m S Q) HI' HC' Hcalls) as P.
  fold h w in P. assert (Eb : forall X (x : option X) y, is_self x = is_self query -> diagonals x y buffer h w = diagonals query y buffer h w /\ buffer_used x y buffer = buffer_used query y buffer) by (intros X [x|] y; destruct query; try discriminate; auto).
  destruct (Eb _ (option_map finss query) (Z.of_nat m)) as [E1 E2]; [destruct query; reflexivity|].
  assert (E3 : forall t, complete (option_map finss query) (Z.of_nat m) buffer h w t <-> complete query (Z.of_nat m) buffer h w t) by (intro t; unfold complete; rewrite E1; reflexivity).
  assert (E4 : is_self (option_map finss query) = is_self query) by (destruct query; reflexivity).
  rewrite E1, E2, E4, Hs in P. fold b in P.
  destruct P as (order & p & res & P1 & P2 & P3 & P4 & P5 & P6).
  - rewrite <- E0. unfold q. destruct (is_self query); reflexivity.
  - apply (@adapt G g_col g_diag g_s g_q). intros H Hc. destruct (A0 H Hc) as (g & Eg & C1 & D1). exists g. split; [exact Eg|]. unfold h, w. rewrite <- LS, <- LQ. split.
    + intros c Hcol. rewrite map_length in Hcol. destruct (C1 c Hcol) as (g' & Ec). exists g'. exact Ec.
    + intros d Hd. destruct (D1 d) as (g' & Ed); [|exists g'; exact Ed]. eapply has_diag_length; [..|exact Hd]; rewrite map_length; reflexivity.
  - reflexivity.
  - intros Hq r c Hr Hc. assert (EQ : Q = S) by (apply HN; destruct query; [discriminate|reflexivity]). unfold entry. rewrite EQ. f_equal. apply Hsym. rewrite EQ in LQ. unfold sub. rewrite !firstn_length, !skipn_length. lia.
  - exists res. split; [exact P3|]. exists order, p. split; [exact P1|]. split; [exact P2|]. split; [exact P4|]. split; [intro Hc; apply P5, E3, Hc|exact P6].
Qed.

(** ** C58. The whole program with ZNormEuclidean: any finite data, any calls *)
Theorem C58_profile : forall set_order shuffle mem memb noise sf m n nq (series : list (list R)) query buffer dim S Q calls,
  orders_sets set_order -> (forall l, Permutation (shuffle l) l) -> (1 <= sf)%Q -> (0 <= noise)%R ->
  proper_input m n nq series query buffer -> channel_data dim series query S Q -> Forall sensible_call calls ->
  exists res, zn_program set_order shuffle mem memb noise sf (Z.of_nat m) (finss series) (option_map finss query) buffer (Z.of_nat dim) calls = Ok res /\
    profile_after (entry (zdist noise) m S Q) query m n nq buffer calls res.
Proof.
  intros set_order shuffle mem memb noise sf m n nq series query buffer dim S Q calls HSO HSH Hsf Hnoise HI HC Hcalls.
  apply real_program with (g_s := @zn_append_series R NumR) (g_q := @zn_append_query R NumR); auto.
  - intros x y L. apply zdist_sym. exact L.
  - intros q Eq Es. destruct (inputs_long HI HC) as (Hm & HS & HQ). rewrite <- Eq in HQ. destruct (@zn_batch_all mem memb noise sf m S q Hm HS HQ Hsf Hnoise) as (g0 & E0 & A0). rewrite Eq in A0.
    exists g0. split; [rewrite Nat2Z.id; exact E0|]. intros H Hc. destruct (A0 H Hc) as (g & Eg & [D1 _] & C1). exists g. split; [exact Eg|]. split; [exact C1|]. intros d Hd. exists g. apply D1, Hd.
Qed.
Print Assumptions C58_profile.

(** Without noise elimination, when complete: entry j is the smallest distance by definition of subsequence j to a subsequence outside
    the trivial match zone. *)
Theorem C58_complete : forall set_order shuffle mem memb sf m n nq (series : list (list R)) query buffer dim S Q calls,
  orders_sets set_order -> (forall l, Permutation (shuffle l) l) -> (1 <= sf)%Q ->
  proper_input m n nq series query buffer -> channel_data dim series query S Q -> Forall sensible_call calls -> completes calls ->
  exists mp idx, zn_program set_order shuffle mem memb 0 sf (Z.of_nat m) (finss series) (option_map finss query) buffer (Z.of_nat dim) calls = Ok (mp, idx) /\
    length mp = n + 1 - m /\ length idx = n + 1 - m /\
    forall j, j < n + 1 - m -> exists v i, nth_error mp j = Some v /\ nth_error idx j = Some i /\
      smallest (outside (buffer_used query (Z.of_nat m) buffer) (nq + 1 - m) j) (fun r => Fin (zdef (sub m Q r) (sub m S j))) v i.
Proof.
  intros set_order shuffle mem memb sf m n nq series query buffer dim S Q calls HSO HSH Hsf HI HC Hcalls Hcs.
  destruct (@C58_profile set_order shuffle mem memb 0 sf m n nq series query buffer dim S Q calls HSO HSH Hsf (Rle_refl 0) HI HC Hcalls) as ((mp & idx) & E & (_ & _ & _ & _ & _ & _ & HP)).
  exists mp, idx. split; [exact E|]. destruct (HP Hcs) as (L1 & L2 & HV). split; [exact L1|]. split; [exact L2|]. intros j Hj. destruct (HV j Hj) as (v & i & E1 & E2 & HS). exists v, i. split; [exact E1|]. split; [exact E2|].
  destruct (inputs_long HI HC) as (Hm & HS' & HQ'). destruct (inputs_length HI HC) as [LS LQ].
  assert (Ez : forall r, outside (buffer_used query (Z.of_nat m) buffer) (nq + 1 - m) j r -> entry (zdist 0) m S Q r j = Fin (zdef (sub m Q r) (sub m S j))).
  { intros r [Hr _]. unfold entry. f_equal. apply zdist_def. unfold sub. rewrite !firstn_length, !skipn_length. lia. }
  destruct HS as [[-> HA]|(Hlt & r & Hr & -> & -> & HA)].
  - left. split; [reflexivity|]. intros r Hr. rewrite <- Ez by exact Hr. apply HA, Hr.
  - right. split; [exact Hlt|]. exists r. split; [exact Hr|]. split; [reflexivity|]. split; [apply Ez, Hr|]. intros r' Hr'. rewrite <- Ez by exact Hr'. apply HA, Hr'.
Qed.
Print Assumptions C58_complete.

(** The same with Euclidean *)
Theorem C58_euclid : forall set_order shuffle mem sf m n nq (series : list (list R)) query buffer dim S Q calls,
  orders_sets set_order -> (forall l, Permutation (shuffle l) l) -> (1 <= sf)%Q ->
  proper_input m n nq series query buffer -> channel_data dim series query S Q -> Forall sensible_call calls -> separated m S Q ->
  exists res, eu_program set_order shuffle mem sf (Z.of_nat m) (finss series) (option_map finss query) buffer (Z.of_nat dim) calls = Ok res /\
    profile_after (entry euclid m S Q) query m n nq buffer calls res.
Proof.
  intros set_order shuffle mem sf m n nq series query buffer dim S Q calls HSO HSH Hsf HI HC Hcalls Hsep.
  apply real_program with (g_s := @eu_append_series R) (g_q := @eu_append_query R); auto.
  - intros x y _. unfold euclid. rewrite sqd_sym. reflexivity.
  - intros q Eq Es. destruct (inputs_long HI HC) as (Hm & HS & HQ). rewrite <- Eq in HQ.
    destruct (eu_batch_state mem S q E1 Hm HS HQ Hsf) as (g0 & E0 & _). exists g0. split; [rewrite Nat2Z.id; exact E0|]. intros H Hc.
    rewrite <- Eq in *. destruct (@eu_batch_exact mem sf m S q Hm HS HQ Hsf H 0 Hsep Hc HS) as (g1 & g & g' & F0 & F1 & _). assert (g1 = g0) by congruence. subst g1. exists g. split; [exact F1|]. split.
    + intros c Hcol. destruct (@eu_batch_exact mem sf m S q Hm HS HQ Hsf H c Hsep Hc Hcol) as (g1 & g2 & g3 & F2 & F3 & F4). assert (g1 = g0) by congruence. subst g1. assert (g2 = g) by congruence. subst g2. eauto.
    + intros d Hd. destruct (@eu_batch_diag mem sf m S q Hm HS HQ Hsf H d Hc Hd) as (g1 & g2 & F2 & F3 & F4). assert (g1 = g0) by congruence. subst g1. assert (g2 = g) by congruence. subst g2. eauto.
Qed.
Print Assumptions C58_euclid.

(** The same with FilterGenerator(ZNormEuclidean(...)), on data with NaN and infinities anywhere *)
Theorem C58_nonfinite : forall set_order shuffle mem memb noise sf sf' m n nq (series : list (list (num R))) query buffer dim S Q calls,
  orders_sets set_order -> (forall l, Permutation (shuffle l) l) -> (1 <= sf)%Q -> (1 <= sf')%Q -> (0 <= noise)%R ->
  proper_input m n nq series query buffer -> channel_data dim series query S Q -> Forall sensible_call calls ->
  exists res, zn_filter_program set_order shuffle mem memb noise sf sf' (Z.of_nat m) series query buffer (Z.of_nat dim) calls = Ok res /\
    profile_after (entry_or_inf (zdist noise) m S Q) query m n nq buffer calls res.
Proof.
  intros set_order shuffle mem memb noise sf sf' m n nq series query buffer dim S Q calls HSO HSH Hsf Hsf' Hnoise HI HC Hcalls.
  destruct (inputs_long HI HC) as (Hm & HS & HQ). destruct (inputs_length HI HC) as [LS LQ].
  assert (HN : query = None -> Q = S) by (intros ->; apply HC).
  set (q := match query with Some _ => Some Q | None => None end). assert (Qq : query_or S q = Q) by (unfold q; destruct query; [reflexivity|symmetry; apply HN; reflexivity]).
  destruct (@C23_nonfinite_znorm mem memb noise sf sf' m S q Hm HS) as (f0 & E0 & A0); [rewrite Qq; exact HQ|assumption..|]. rewrite Qq in A0.
  destruct (@program_all R NumR OrdR (num R) _ (fb_calc_column (zn_calc_column mem)) (fb_calc_diagonal (@zn_calc_diagonal R NumR))
    (fun m s q => fb_prepare (@is_not_finite R) (fun m s q => zn_prepare mem memb (Fin noise) sf m s q) sf' (Z.to_nat m) s q) set_order shuffle HSO HSH
    m n nq series query buffer dim calls S Q f0 (entry_or_inf (zdist noise) m S Q) HI HC Hcalls) as (order & p & res & P1 & P2 & P3 & P4 & P5 & P6).
  - rewrite Nat2Z.id. exact E0.
  - intros H Hc. destruct (A0 H Hc) as (f & Ef & D1 & C1). exists f. split; [exact Ef|]. rewrite <- LS, <- LQ. split; [exact C1|exact D1].
  - intros r c Hr Hc. unfold entry_or_inf, dist_or_inf. destruct (_ && _); reflexivity.
  - intros Hq r c Hr Hc. rewrite (HN Hq) in *. unfold entry_or_inf, dist_or_inf. rewrite andb_comm. destruct (_ && _); [|reflexivity]. f_equal. apply zdist_sym. unfold sub. rewrite !map_length, !firstn_length, !skipn_length. lia.
  - exists res. split; [exact P3|]. exists order, p. auto.
Qed.
Print Assumptions C58_nonfinite.

(** Examples *)
Definition quick (l : list nat) : list nat := nodup Nat.eq_dec l.
Definition some_calls : list acall := [ACols (fun k => k =? 1) None (RFloat (Fin 1%Q)); ADiags (fun k => k =? 2) (RFloat (Fin (1 # 2))); ACols never (Some (RInt 3)) (RInt 4)].
Example C58_example_hyps : orders_sets quick /\ (forall l : list Z, Permutation (rev l) l) /\ Forall sensible_call (some_calls ++ [ADiags never (RFloat (Fin 1%Q))]) /\
  completes (some_calls ++ [ADiags never (RFloat (Fin 1%Q))]) /\
  proper_input 2 6 6 [[0; 1; 0; 0; 1; 0]%R; [4; 0; 3; 0; 4; 3]%R] None None /\ channel_data 1 [[0; 1; 0; 0; 1; 0]%R; [4; 0; 3; 0; 4; 3]%R] None [4; 0; 3; 0; 4; 3]%R [4; 0; 3; 0; 4; 3]%R.
Proof.
  split; [|split; [|split; [|split; [|split]]]].
  - intro l. split; [apply NoDup_nodup|intro x; apply nodup_In].
  - intro l. symmetry. apply Permutation_rev.
  - repeat constructor; discriminate.
  - left. eexists. reflexivity.
  - repeat split; try lia; try (intros r [<-|[<-|[]]]; reflexivity); discriminate.
  - split; reflexivity.
Qed.
Definition eu_program_Z := profile_program (eu_calc_column (fun _ => NaN)) (@eu_calc_diagonal Z NumZ) (fun m s q => eu_prepare (fun _ => NaN) 2 (Z.to_nat m) s q) quick (fun l => rev l).
(** Self-join on channel 1: the best match that is at least 2 away *)
Example C58_example_self : eu_program_Z 2 [zs [9; 9; 9; 9; 9; 9]; zs [4; 0; 3; 0; 4; 3]]%Z None None 1 (some_calls ++ [ADiags never (RFloat (Fin 1%Q))]) =
  Ok ([Fin 1; Fin 1; Fin 1; Fin 1; Fin 3]%Z, [2; 3; 0; 1; 0]%Z).
Proof. vm_compute. reflexivity. Qed.
(** Only the calls before it *)
Example C58_example_partial : eu_program_Z 2 [zs [9; 9; 9; 9; 9; 9]; zs [4; 0; 3; 0; 4; 3]]%Z None None 1 some_calls =
  Ok ([Fin 1; Fin 4; PInf; Fin 1; Fin 3]%Z, [2; 4; -1; 1; 0]%Z).
Proof. vm_compute. reflexivity. Qed.
(** Join: query channel 1 against series channel 1 *)
Example C58_example_join : eu_program_Z 2 [zs [9; 9; 9; 9; 9; 9]; zs [4; 0; 3; 0; 4; 3]]%Z (Some [zs [1; 1; 1]; zs [0; 4; 0]])%Z None 1 [ACols never None (RInt 2); ACols never None (RFloat (Fin 1%Q))] =
  Ok ([Fin 0; Fin 1; Fin 1; Fin 0; Fin 3]%Z, [1; 0; 1; 0; 1]%Z).
Proof. vm_compute. reflexivity. Qed.

Example C61_example : bind (foldM (any_call (tab_col 4) (tab_diag 4 4) rec_step dedup)
    [ADiags (fun k => k =? 1) (RFloat (Fin 1%Q)); ACols never None (RInt 2); ADiags never (RFloat (Fin 1%Q)); ACols (fun k => k =? 1) None (RFloat (Fin 1%Q))]
    (with_parts four [(tt, 0)] [([], [0])])) (fun a => Ok (map fst (ca_cons (an_calc a)), ca_last (an_calc a), an_done a)) =
  Ok ([[EDiag 3 [[Fz 3]]; EDiag (-3) [[Fz 3]]; ECol 0 [[PInf; PInf; Fz 20; Fz 30]]; ECol 1 [[PInf; PInf; PInf; Fz 31]];
        EDiag 2 [[Fz 2; Fz 13]]; EDiag (-2) [[Fz 2; Fz 13]]; ECol 2 [[Fz 2; PInf; PInf; PInf]]]], 2%Z, 3%Z).
Proof. vm_compute. reflexivity. Qed.

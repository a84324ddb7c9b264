(** * PStaleChunks: rejected chunks that end badly *)
From Coq Require Import QArith Reals Lra.
From Verif Require Import Np NpFacts SReal SCalc SGen SStale PArith PStats PRejected SRejectJoin PRejectJoin SStaleStats PStaleStats PStaleOne SStaleChunks.
Set Implicit Arguments.
Open Scope nat_scope.

Lemma fin_inj (a b : list R) : fin a = fin b -> a = b.
Proof. intro E. rewrite <- (value_fin a), <- (value_fin b), E. reflexivity. Qed.
Lemma lastn_app_l {T} k (a b : list T) : length b <= k -> lastn k (a ++ b) = lastn (k - length b) a ++ b.
Proof.
  intro H. unfold lastn. rewrite app_length, skipn_app. replace (length a + length b - k - length a) with 0 by lia. cbn [skipn]. do 2 f_equal. lia.
Qed.
Lemma lastn_seq {T} (f : nat -> T) n k : k <= n -> lastn k (map f (seq 0 n)) = map (fun j => f (n - k + j)) (seq 0 k).
Proof.
  intro H. replace n with ((n - k) + k) at 1 by lia. rewrite seq_app, map_app, lastn_app_r by (rewrite map_length, seq_length; lia).
  rewrite lastn_all by (rewrite map_length, seq_length; lia). cbn [Nat.add]. apply nth_error_ext. intro i. rewrite !nth_error_map, !nth_error_seq. destruct (i <? k); reflexivity.
Qed.

Lemma chunks_tail m W : 0 < m -> m <= W -> forall chunks, chunks_ok m W chunks -> forall k S, k + m - 1 <= W -> lastn (k + m - 1) (concat chunks) = fin S -> length S = k + m - 1 ->
  lastn k (all_subs m W [] chunks) = map (sub m S) (seq 0 k) /\ k <= length (all_subs m W [] chunks).
Proof.
  intros Hm HW. induction chunks as [|xs chunks IH] using rev_ind; intros OK k S Hk E L.
  - cbn in E. assert (length S = 0) as L0 by (destruct S; [reflexivity|discriminate]). replace k with 0 by lia. split; [reflexivity|cbn; lia].
  - assert (OK' : chunks_ok m W chunks). { intros b x a -> Nx. apply (OK b x (a ++ [xs])); [rewrite <- app_assoc; reflexivity|exact Nx]. }
    rewrite all_subs_snoc. cbn [app]. rewrite concat_app in E. cbn [concat] in E. rewrite app_nil_r in E.
    destruct xs as [|x0 xs0] eqn:Ex; [cbn [new_subs]; rewrite app_nil_r in E; change (new_subs m W (concat chunks) []) with (@nil (list R)); rewrite app_nil_r; apply IH; assumption|].
    assert (Nx : xs <> []) by (rewrite Ex; discriminate). rewrite <- Ex in *. clear Ex x0 xs0. assert (Lx : 0 < length xs) by (destruct xs; [congruence|cbn; lia]).
    destruct k as [|k']; [split; [|lia]; unfold lastn; rewrite Nat.sub_0_r, skipn_all; reflexivity|]. set (k := Datatypes.S k') in *.
    set (tot := concat chunks ++ xs) in *.
    assert (Lt : k + m - 1 <= length tot). { pose proof (f_equal (@length _) E) as E'. rewrite length_lastn, map_length in E'. lia. }
    specialize (OK chunks xs [] eq_refl Nx). unfold chunk_ok in OK. fold tot in OK. rewrite (final_lastn (length xs + m - 1)), (final_lastn W) in OK.
    destruct OK as [OK|(x & Hx & Fx)].
    2: { exfalso. assert (Em : lastn m tot = lastn m (lastn (k + m - 1) tot)) by (rewrite lastn_lastn_min; f_equal; lia).
         rewrite E, lastn_map in Em. rewrite final_lastn, Em in Hx. apply in_map_iff in Hx as (y & <- & _). discriminate. }
    destruct (finite_fin _ OK) as (p & Ep). rewrite new_subs_eq by assumption. cbn zeta. fold tot. rewrite Ep, all_finite, value_fin, map_length.
    pose proof (f_equal (@length _) Ep) as Lp. rewrite !length_lastn, map_length in Lp. set (n := length p + 1 - m).
    rewrite app_length, map_length, seq_length.
    destruct (Nat.leb_spec k n) as [C|C].
    + split; [|lia]. rewrite lastn_app_r by (rewrite map_length, seq_length; lia). rewrite lastn_seq by exact C. apply map_ext_in. intros j Hj. apply in_seq in Hj.
      assert (Es : S = lastn (k + m - 1) p).
      { apply fin_inj. rewrite <- E, <- lastn_map, <- Ep, !lastn_lastn_min. f_equal. lia. }
      rewrite Es, sub_lastn. f_equal. lia.
    + assert (Lp' : length p = length xs + m - 1) by lia. assert (Ln : n = length xs) by lia. unfold tot in E. rewrite lastn_app_l in E by lia.
      destruct (map_eq_app _ _ _ _ (eq_sym E)) as (T1 & T2 & -> & E1 & E2).
      assert (L2 : length T2 = length xs) by (rewrite <- E2, map_length; reflexivity). rewrite app_length in L.
      destruct (IH OK' (k - length xs) T1) as (I1 & I2); [lia|rewrite E1; f_equal; lia|lia|].
      split; [|lia]. rewrite lastn_app_l by (rewrite map_length, seq_length; lia). rewrite map_length, seq_length, Ln, I1.
      replace (seq 0 k) with (seq 0 (k - length xs) ++ seq (k - length xs) (length xs)).
      2: { rewrite <- (Nat.add_0_l (k - length xs)) at 2. rewrite <- seq_app. f_equal. lia. }
      rewrite map_app. f_equal.
      * apply map_ext_in. intros j Hj. apply in_seq in Hj. unfold sub. rewrite skipn_app, firstn_app, skipn_length. replace (m - (length T1 - j)) with 0 by lia.
        rewrite firstn_O, app_nil_r. reflexivity.
      * assert (Es : p = lastn (length xs + m - 1) (T1 ++ T2)).
        { apply fin_inj. rewrite <- Ep, <- lastn_map, map_app, E1, E2. fold tot. rewrite <- (@lastn_app_l _ (k + m - 1)) by lia. fold tot. rewrite !lastn_lastn_min. f_equal. lia. }
        apply nth_error_ext. intro i. rewrite !nth_error_map, !nth_error_seq. destruct (i <? length xs); [|reflexivity]. cbn [option_map Nat.add]. f_equal.
        rewrite Es, sub_lastn, app_length. f_equal. lia.
Qed.

Lemma chunks_len m W : 0 < m -> m <= W -> forall chunks, length (concat chunks) <= W -> length (all_subs m W [] chunks) <= length (concat chunks) + 1 - m.
Proof.
  intros Hm HW. induction chunks as [|xs chunks IH] using rev_ind; intro L; [cbn; lia|]. rewrite all_subs_snoc. cbn [app]. rewrite concat_app in *. cbn [concat] in *. rewrite app_nil_r in *.
  rewrite app_length in *. specialize (IH ltac:(lia)). rewrite app_length. destruct xs as [|x0 xs0] eqn:Ex; [cbn; lia|].
  assert (Nx : xs <> []) by (rewrite Ex; discriminate). rewrite <- Ex in *. clear Ex x0 xs0. assert (Lx : 0 < length xs) by (destruct xs; [congruence|cbn; lia]).
  rewrite new_subs_eq by assumption. cbn zeta. destruct (forallb _ _); [|cbn; lia]. rewrite map_length, seq_length, !length_lastn, app_length. lia.
Qed.

Lemma held_chunks m W chunks S : 0 < m -> m <= W -> chunks_ok m W chunks -> lastn W (concat chunks) = fin S ->
  final (W + 1 - m) (all_subs m W [] chunks) = map (sub m S) (seq 0 (length S + 1 - m)).
Proof.
  intros Hm HW OK E. rewrite final_lastn. pose proof (f_equal (@length _) E) as L. rewrite length_lastn, map_length in L.
  destruct (Nat.leb_spec W (length (concat chunks))) as [C|C].
  - destruct (@chunks_tail m W Hm HW chunks OK (W + 1 - m) S) as [R1 _]; [lia|rewrite <- E; f_equal; lia|lia|]. rewrite R1. do 2 f_equal. lia.
  - pose proof (@chunks_len m W Hm HW chunks ltac:(lia)) as B. rewrite lastn_all by lia. destruct (Nat.leb_spec m (length (concat chunks))) as [D|D].
    + destruct (@chunks_tail m W Hm HW chunks OK (length (concat chunks) + 1 - m) S) as [R1 _]; [lia|rewrite <- E; unfold lastn; f_equal; lia|lia|].
      rewrite lastn_all in R1 by lia. rewrite R1. do 2 f_equal. lia.
    + replace (length S + 1 - m) with 0 by lia. destruct (all_subs _ _ _ _); [reflexivity|cbn in B; lia].
Qed.

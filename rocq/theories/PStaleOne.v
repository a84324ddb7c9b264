(** * PStaleOne: points appended one by one *)
From Coq Require Import QArith Reals Lra.
From Verif Require Import Np NpFacts SReal SCalc SGen SStale PArith PStats PRejected SRejectJoin PRejectJoin SStaleStats PStaleStats.
Set Implicit Arguments.
Open Scope nat_scope.

Definition ones {T} (l : list T) : list (list T) := map (fun x => [x]) l.

Lemma all_subs_snoc m W chunks xs : forall pts, all_subs m W pts (chunks ++ [xs]) = all_subs m W pts chunks ++ new_subs m W (pts ++ concat chunks) xs.
Proof.
  induction chunks as [|c chunks IH]; intro pts; cbn [app all_subs concat]; [rewrite !app_nil_r; reflexivity|]. rewrite IH, <- !app_assoc. reflexivity.
Qed.
Lemma concat_ones {T} (l : list T) : concat (ones l) = l.
Proof. induction l as [|x l IH]; cbn; [reflexivity|]. unfold ones in IH. rewrite IH. reflexivity. Qed.

Lemma new_one m W l x : 0 < m -> m <= W -> new_subs m W l [x] =
  let part := lastn m (l ++ [x]) in if forallb isfinite part && (m <=? length (l ++ [x])) then [map value part] else [].
Proof.
  intros Hm HW. rewrite new_subs_eq by discriminate. cbn zeta. cbn [length]. replace (1 + m - 1) with m by lia.
  replace (lastn m (lastn W (l ++ [x]))) with (lastn m (l ++ [x])).
  2: { rewrite lastn_lastn_min. f_equal. lia. }
  set (part := lastn m (l ++ [x])). assert (Lp : length part = Nat.min m (length (l ++ [x]))) by (unfold part; apply length_lastn).
  destruct (forallb isfinite part); [|reflexivity]. cbn [andb]. destruct (Nat.leb_spec m (length (l ++ [x]))) as [C|C].
  - replace (length part + 1 - m) with 1 by lia. cbn [seq map]. unfold sub. rewrite skipn_O, firstn_all2 by (rewrite map_length; lia). reflexivity.
  - replace (length part + 1 - m) with 0 by lia. reflexivity.
Qed.

Lemma ones_app {T} (l : list T) x : ones (l ++ [x]) = ones l ++ [[x]].
Proof. unfold ones. rewrite map_app. reflexivity. Qed.
Lemma ones_len m W l : 0 < m -> m <= W -> length (all_subs m W [] (ones l)) <= length l + 1 - m.
Proof.
  intros Hm HW. induction l as [|x l IH] using rev_ind; [cbn; lia|]. rewrite ones_app, all_subs_snoc, concat_ones, app_length. cbn [app].
  rewrite new_one by assumption. cbn zeta. rewrite app_length. cbn [length]. destruct (Nat.leb_spec m (length l + 1)); rewrite ?andb_false_r; [|cbn; lia].
  destruct (forallb _ _); cbn; lia.
Qed.
Lemma lastn_snoc {T} k (l : list T) x : lastn (S k) (l ++ [x]) = lastn k l ++ [x].
Proof.
  unfold lastn. rewrite app_length. cbn [length]. rewrite skipn_app. replace (length l + 1 - S k) with (length l - k) by lia.
  replace (length l - k - length l) with 0 by lia. reflexivity.
Qed.
Lemma ones_tail m W : 0 < m -> m <= W -> forall k l S, lastn (k + m - 1) l = fin S -> length S = k + m - 1 ->
  lastn k (all_subs m W [] (ones l)) = map (sub m S) (seq 0 k) /\ k <= length (all_subs m W [] (ones l)).
Proof.
  intros Hm HW. induction k as [|k IH]; intros l S E L.
  - split; [|lia]. unfold lastn. rewrite Nat.sub_0_r, skipn_all. reflexivity.
  - assert (Ll : k + m <= length l). { pose proof (f_equal (@length _) E) as E'. rewrite length_lastn, map_length in E'. lia. }
    destruct (exists_last (l := l)) as (l' & x & ->); [intros ->; cbn in Ll; lia|].
    destruct (exists_last (l := S)) as (S' & xv & ->); [intros ->; cbn in L; lia|].
    replace (Datatypes.S k + m - 1) with (Datatypes.S (k + m - 1)) in E by lia. rewrite lastn_snoc, map_app in E. cbn [map] in E.
    apply app_inj_tail in E as [E ->]. rewrite app_length in L, Ll. cbn [length] in L, Ll.
    destruct (IH l' S' E ltac:(lia)) as (I1 & I2).
    rewrite ones_app, all_subs_snoc, concat_ones. cbn [app]. rewrite new_one by assumption. cbn zeta.
    assert (P : lastn m (l' ++ [Fin xv]) = fin (sub m (S' ++ [xv]) k)).
    { replace m with (Datatypes.S (m - 1)) at 1 by lia. rewrite lastn_snoc. unfold sub. rewrite firstn_all2 by (rewrite skipn_length, app_length; cbn; lia).
      rewrite skipn_app. replace (k - length S') with 0 by lia. rewrite map_app. cbn [skipn map]. f_equal.
      replace (lastn (m - 1) l') with (lastn (m - 1) (lastn (k + m - 1) l')) by (rewrite lastn_lastn_min; f_equal; lia).
      rewrite E, lastn_map. unfold lastn. do 2 f_equal. lia. }
    rewrite P, all_finite, value_fin. rewrite app_length. cbn [length]. destruct (Nat.leb_spec m (length l' + 1)); [|lia]. cbn [andb].
    rewrite lastn_snoc, app_length. cbn [length]. split; [|lia]. rewrite I1, seq_S, map_app. cbn [map Nat.add]. f_equal.
    apply map_ext_in. intros j Hj. apply in_seq in Hj. unfold sub. rewrite skipn_app, firstn_app, skipn_length. replace (m - (length S' - j)) with 0 by lia.
    rewrite firstn_O, app_nil_r. reflexivity.
Qed.

Lemma held_ones m W l S : 0 < m -> m <= W -> lastn W l = fin S -> final (W + 1 - m) (all_subs m W [] (ones l)) = map (sub m S) (seq 0 (length S + 1 - m)).
Proof.
  intros Hm HW E. rewrite final_lastn. pose proof (f_equal (@length _) E) as L. rewrite length_lastn, map_length in L. pose proof (@ones_len m W l Hm HW) as B.
  destruct (Nat.leb_spec W (length l)) as [C|C].
  - destruct (@ones_tail m W Hm HW (W + 1 - m) l S) as [R _]; [rewrite <- E; f_equal; lia|lia|]. rewrite R. do 2 f_equal. lia.
  - assert (A : forall n (u : list (list R)), length u <= n -> lastn n u = u). { intros n u Hu. unfold lastn. replace (length u - n) with 0 by lia. reflexivity. }
    rewrite A by lia. destruct (Nat.leb_spec m (length l)) as [D|D].
    + destruct (@ones_tail m W Hm HW (length l + 1 - m) l S) as [R1 _]; [rewrite <- E; unfold lastn; f_equal; lia|lia|]. rewrite A in R1 by lia. rewrite R1. do 2 f_equal. lia.
    + replace (length S + 1 - m) with 0 by lia. destruct (all_subs _ _ _ _); [reflexivity|cbn in B; lia].
Qed.

(** One chunk *)
Lemma held_one_chunk m W xs S : 0 < m -> m <= W -> xs <> [] -> lastn W xs = fin S -> final (W + 1 - m) (all_subs m W [] [xs]) = map (sub m S) (seq 0 (length S + 1 - m)).
Proof.
  intros Hm HW Nx E. cbn [all_subs app]. rewrite app_nil_r, final_lastn, new_subs_eq by assumption. cbn zeta. cbn [app]. rewrite E.
  assert (Lx : 0 < length xs) by (destruct xs; [congruence|cbn; lia]).
  pose proof (f_equal (@length _) E) as L. rewrite length_lastn, map_length in L.
  rewrite (@lastn_all _ (length xs + m - 1) (fin S)) by (rewrite map_length; lia). rewrite all_finite, value_fin, map_length. apply lastn_all. rewrite map_length, seq_length. lia.
Qed.

Lemma chunks_ones {T} (chunks : list (list T)) : Forall (fun xs => length xs = 1) chunks -> chunks = ones (concat chunks).
Proof.
  induction 1 as [|xs chunks H _ IH]; [reflexivity|]. destruct xs as [|x [|y xs]]; try discriminate. cbn [concat app ones map]. f_equal. exact IH.
Qed.
Lemma s_concat {X} (H : list (gcall X)) : concat (s_chunks H) = s_points H.
Proof. unfold s_chunks, s_points. induction H as [|o H IH]; [reflexivity|]. cbn [flat_map]. destruct o; cbn [app concat]; rewrite IH; reflexivity. Qed.
Lemma q_concat {X} (H : list (gcall X)) : concat (q_chunks H) = q_points H.
Proof. unfold q_chunks, q_points. induction H as [|o H IH]; [reflexivity|]. cbn [flat_map]. destruct o; cbn [app concat]; rewrite IH; reflexivity. Qed.

(** Statistics that match the points *)
Lemma right_cell noise m S Q r c : (0 <= r)%Z -> (0 <= c)%Z -> Z.to_nat r + m <= length Q -> Z.to_nat c + m <= length S ->
  off_cell noise m S Q (map (sub m S) (seq 0 (length S + 1 - m))) (map (sub m Q) (seq 0 (length Q + 1 - m))) r c = cell_dist (zdist noise) m S Q r c.
Proof.
  intros Hr Hc Lr Lc. unfold off_cell, cell_dist.
  assert (N : forall (u : list R) i, i + m <= length u -> nth i (map (sub m u) (seq 0 (length u + 1 - m))) [] = sub m u i).
  { intros u i Hi. rewrite (nth_indep _ [] (sub m u 0)) by (rewrite map_length, seq_length; lia). rewrite map_nth, seq_nth by lia. reflexivity. }
  rewrite !N by assumption. cbn zeta. f_equal. unfold zdist_off, zdist. set (a := sub m Q _). set (b := sub m S _). replace (dotp a b - dotp a b)%R with 0%R by lra.
  replace (zsq noise a b - (if uneven a && uneven b then 2 * 0 / (std a * std b) else 0))%R with (zsq noise a b) by (destruct (_ && _); unfold Rdiv; lra).
  reflexivity.
Qed.

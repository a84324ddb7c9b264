(** * PGenRun: histories of calls of a generator that caches a column. *)
From Coq Require Import Reals Sorted.
From Verif Require Import Np NpFacts SReal SGen PArith PCache.
Set Implicit Arguments.
Open Scope nat_scope.

Lemma StronglySorted_app_inv {T} (R : T -> T -> Prop) l1 l2 : StronglySorted R (l1 ++ l2) ->
  StronglySorted R l1 /\ StronglySorted R l2 /\ (forall x y, In x l1 -> In y l2 -> R x y).
Proof.
  induction l1 as [|a l1 IH]; cbn [app]; intro H.
  - split; [constructor|]. split; [exact H|]. intros x y [].
  - inversion H as [|? ? H1 H2]; subst. destruct (IH H1) as (A1 & A2 & A3). rewrite Forall_app in H2. destruct H2 as [F1 F2].
    split; [constructor; auto|]. split; [auto|]. intros x y [<-|Hx] Hy; [|auto]. rewrite Forall_forall in F2. auto.
Qed.

Section Ghost.
  Context {X : Type}.
  Variables (self : bool) (W : nat).
  Definition counted_n (n k : nat) : bool := (Nat.min W n =? W) || (Nat.min W n + 2 * k <=? W).

  (** exact, used, number of series points, last column asked (absolute) *)
  Record ghost := mkGhost { gh_exact : bool; gh_used : bool; gh_n : nat; gh_last : Z }.
  Definition ghost_step (s : ghost) (o : gcall X) : ghost :=
    match o with
    | CSeries xs => mkGhost (gh_exact s && (self || negb (gh_used s) || counted_n (gh_n s) (length xs))) (gh_used s) (gh_n s + length xs) (gh_last s)
    | CCol c => mkGhost (gh_exact s) true (gh_n s) (Z.max (gh_last s) (Z.of_nat (gh_n s - W + c)))
    | _ => s
    end.
  Definition ghost_of (H : list (gcall X)) : ghost := fold_left ghost_step H (mkGhost true false 0 (-1)).

  Lemma ghost_snoc H o : ghost_of (H ++ [o]) = ghost_step (ghost_of H) o.
  Proof. unfold ghost_of. rewrite fold_left_app. reflexivity. Qed.
  Lemma s_points_snoc (H : list (gcall X)) o : s_points (H ++ [o]) = s_points H ++ match o with CSeries xs => xs | _ => [] end.
  Proof. unfold s_points. rewrite flat_map_app. cbn [flat_map]. rewrite app_nil_r. reflexivity. Qed.
  Lemma q_points_snoc (H : list (gcall X)) o : q_points (H ++ [o]) = q_points H ++ match o with CQuery xs => xs | _ => [] end.
  Proof. unfold q_points. rewrite flat_map_app. cbn [flat_map]. rewrite app_nil_r. reflexivity. Qed.
  Lemma ghost_n H : gh_n (ghost_of H) = length (s_points H).
  Proof.
    induction H as [|o H IH] using rev_ind; [reflexivity|]. rewrite ghost_snoc, s_points_snoc, app_length.
    destruct o; cbn [ghost_step gh_n length]; lia.
  Qed.
  Lemma ghost_used H : gh_used (ghost_of H) = existsb asks_col H.
  Proof.
    induction H as [|o H IH] using rev_ind; [reflexivity|]. rewrite ghost_snoc, existsb_app. cbn [existsb]. rewrite orb_false_r.
    destruct o; cbn [ghost_step gh_used asks_col]; rewrite ?orb_false_r, ?orb_true_r; auto.
  Qed.
  Lemma cols_asked_app n H1 H2 : cols_asked W n (H1 ++ H2) = cols_asked W n H1 ++ @cols_asked X W (n + length (s_points H1)) H2.
  Proof.
    revert n. induction H1 as [|o H1 IH]; intro n; cbn [app cols_asked]; [f_equal; simpl; lia|].
    destruct o; cbn [s_points flat_map app]; rewrite IH; try reflexivity.
    - rewrite app_length, Nat.add_assoc. reflexivity.
  Qed.
  Lemma ghost_last H : gh_last (ghost_of H) = (-1)%Z \/ exists c, In c (cols_asked W 0 H) /\ gh_last (ghost_of H) = Z.of_nat c.
  Proof.
    induction H as [|o H IH] using rev_ind; [auto|]. rewrite ghost_snoc, cols_asked_app.
    destruct o; cbn [ghost_step gh_last cols_asked]; rewrite ?app_nil_r; auto.
    rewrite ghost_n. cbn [Nat.add]. right. destruct (Z.max_spec (gh_last (ghost_of H)) (Z.of_nat (length (s_points H) - W + c))) as [[_ ->]|[L ->]].
    - eexists; split; [|reflexivity]. apply in_or_app. right. left. reflexivity.
    - destruct IH as [IH|(c' & I & E)]; [lia|]. exists c'. split; [apply in_or_app; auto|exact E].
  Qed.

  Lemma trusted_prefix H1 H2 : trusted self W (H1 ++ H2) -> @trusted X self W H1.
  Proof.
    intros [T|[T|T]]; [left; exact T|right; left|right; right].
    - intros A xs B ->. apply (T A xs (B ++ H2)). rewrite <- app_assoc. reflexivity.
    - rewrite cols_asked_app in T. apply StronglySorted_app_inv in T. tauto.
  Qed.

  Lemma trusted_ghost H c : trusted self W (H ++ [CCol c]) ->
    gh_exact (ghost_of H) = true \/ (gh_last (ghost_of H) < Z.of_nat (gh_n (ghost_of H) - W + c))%Z.
  Proof.
    intro T. pose proof (trusted_prefix _ _ T) as T0.
    assert (D : (self = true \/ forall H1 xs H2, H = H1 ++ CSeries xs :: H2 ->
      existsb asks_col H1 = false \/ length (wS W H1) = W \/ length (wS W H1) + 2 * length xs <= W) -> gh_exact (ghost_of H) = true).
    { clear. induction H as [|o H IH] using rev_ind; intro D; [reflexivity|]. rewrite ghost_snoc.
      assert (E : gh_exact (ghost_of H) = true).
      { apply IH. destruct D as [D|D]; [auto|right]. intros H1 xs H2 ->. apply (D H1 xs (H2 ++ [o])). rewrite <- app_assoc. reflexivity. }
      destruct o; cbn [ghost_step gh_exact]; auto. rewrite E, ghost_used, ghost_n. cbn [andb].
      destruct D as [->|D]; [reflexivity|].
      destruct (D H xs []) as [D1|[D1|D1]]; [reflexivity|rewrite D1; cbn [negb]; rewrite orb_true_r; reflexivity| |];
        unfold wS in D1; rewrite length_lastn in D1; unfold counted_n; apply orb_true_intro; right.
      - rewrite (proj2 (Nat.eqb_eq _ _) D1). reflexivity.
      - rewrite (proj2 (Nat.leb_le _ _) D1). apply orb_true_r. }
    destruct T0 as [T0|[T0|_]]; [left; apply D; auto|left; apply D; auto|].
    destruct T as [T|[T|T]].
    - left. apply D. auto.
    - left. apply D. right. intros H1 xs H2 ->. apply (T H1 xs (H2 ++ [CCol c])). rewrite <- app_assoc. reflexivity.
    - right. rewrite cols_asked_app in T. apply StronglySorted_app_inv in T as (_ & _ & T). cbn [cols_asked Nat.add] in T.
      rewrite ghost_n. destruct (ghost_last H) as [->|(c' & I & ->)]; [lia|]. specialize (T c' _ I (or_introl eq_refl)). lia.
  Qed.

  Lemma trusted_col H c : trusted self W (H ++ [CCol c]) ->
    let s := ghost_of H in gh_exact s = true \/ (gh_last s - Z.of_nat (gh_n s - W) < Z.of_nat c)%Z.
  Proof. intros Ht. destruct (trusted_ghost _ _ Ht) as [A|A]; [auto|right]. cbn zeta. lia. Qed.
End Ghost.

Section State.
  Variable G : Type.
  Variables (self : bool) (W Wq : nat).
  (** exact, used, windows, last column relative to the window *)
  Variable Inv : bool -> bool -> list R -> list R -> Z -> G -> Prop.

  (** The generator is in the state after the calls [H] *)
  Definition state_after (H : list (gcall R)) (g : G) : Prop :=
    let s := ghost_of self W H in
    Inv (gh_exact s) (gh_used s) (wS W H) (wQ self W Wq H) (gh_last s - Z.of_nat (gh_n s - W)) g.

  Lemma state_start g0 : Inv true false [] [] (-1) g0 -> state_after [] g0.
  Proof.
    intro I0. unfold state_after. cbn [ghost_of fold_left gh_exact gh_used gh_n gh_last].
    replace (-1 - Z.of_nat (0 - W))%Z with (-1)%Z by lia.
    replace (wQ self W Wq []) with (@nil R); [exact I0|]. unfold wQ, wS. case self; reflexivity.
  Qed.
End State.

Section Runs.
  Variable G : Type.
  Variable g_col : G -> nat -> res (G * list (num R)).
  Variable g_diag : G -> Z -> res (G * list (num R)).
  Variable g_s g_q : G -> list (num R) -> res G.
  Variables (self : bool) (m W Wq : nat).
  Variable good : list R -> list R -> Prop.
  (** exact, used, windows, last column relative to the window *)
  Variable Inv : bool -> bool -> list R -> list R -> Z -> G -> Prop.
  Hypothesis Inv_s : forall ex u S Q last g xs, Inv ex u S Q last g -> exists g', g_s g (fin xs) = Ok g' /\
    Inv (ex && (self || negb u || counted W S xs)) u (lastn W (S ++ xs)) (if self then lastn W (S ++ xs) else Q) (last - Z.of_nat (shifted W S xs)) g'.
  Hypothesis Inv_q : self = false -> forall ex u S Q last g xs, Inv ex u S Q last g -> exists g', g_q g (fin xs) = Ok g' /\
    Inv ex u S (lastn Wq (Q ++ xs)) last g'.
  Hypothesis Inv_c : forall ex u S Q last g c, Inv ex u S Q last g -> has_col m S Q c -> good S Q -> ex = true \/ (last < Z.of_nat c)%Z ->
    exists g' v, g_col g c = Ok (g', v) /\ Inv ex true S Q (Z.max last (Z.of_nat c)) g'.
  Hypothesis Inv_d : forall ex u S Q last g d, Inv ex u S Q last g -> has_diag m S Q d ->
    exists g' v, g_diag g d = Ok (g', v) /\ Inv ex u S Q last g'.

  Lemma step_ok H o g : state_after self W Wq Inv H g -> trusted self W (H ++ [o]) ->
    match o with
    | CSeries _ => True
    | CQuery _ => self = false
    | CCol c => has_col m (wS W H) (wQ self W Wq H) c /\ good (wS W H) (wQ self W Wq H)
    | CDiag d => has_diag m (wS W H) (wQ self W Wq H) d
    end -> exists g', gstep g_col g_diag g_s g_q g (finc o) = Ok g' /\ state_after self W Wq Inv (H ++ [o]) g'.
  Proof.
    intros Ig Ht Hr. pose proof Ig as Ig0. unfold state_after in *. cbn zeta in *. rewrite ghost_snoc.
    rewrite ghost_n in Ig. unfold wQ, wS in *. rewrite s_points_snoc, q_points_snoc.
    destruct o; cbn [finc gstep ghost_step gh_exact gh_used gh_n gh_last] in *; rewrite ?app_nil_r, ?ghost_n.
    + destruct (Inv_s xs Ig) as (g' & E & I). rewrite E. exists g'. split; [reflexivity|].
      rewrite lastn_app in I. unfold counted, shifted in I. rewrite length_lastn in I. unfold counted_n.
      match goal with |- Inv _ _ _ _ ?z _ => match type of I with Inv _ _ _ _ ?z' _ => replace z with z' by lia end end.
      revert I. case self; auto.
    + rewrite Hr in *. destruct (Inv_q eq_refl xs Ig) as (g' & E & I). rewrite E. exists g'. split; [reflexivity|].
      rewrite lastn_app in I. exact I.
    + destruct (Inv_c (c := c) Ig) as (g' & v & E & I); [apply Hr|apply Hr| |].
      * destruct (trusted_ghost _ _ Ht) as [A|A]; [auto|right]. rewrite ghost_n in A. lia.
      * rewrite E. cbn [bind fst]. exists g'. split; [reflexivity|].
        match goal with |- Inv _ _ _ _ ?z _ => match type of I with Inv _ _ _ _ ?z' _ => replace z with z' by lia end end. exact I.
    + destruct (Inv_d Ig Hr) as (g' & v & E & I). rewrite E. cbn [bind fst]. exists g'. auto.
  Qed.

  (** Calls [H] after a prefix [H0] *)
  Lemma runs_from H0 g0 H : state_after self W Wq Inv H0 g0 -> in_range self m W Wq (H0 ++ H) -> trusted self W (H0 ++ H) ->
    (forall H1 c H2, H = H1 ++ CCol c :: H2 -> good (wS W (H0 ++ H1)) (wQ self W Wq (H0 ++ H1))) ->
    exists g, grun g_col g_diag g_s g_q g0 (map finc H) = Ok g /\ state_after self W Wq Inv (H0 ++ H) g.
  Proof.
    intros I0. induction H as [|o H IH] using rev_ind; intros Hr Ht Hg.
    - exists g0. split; [reflexivity|]. rewrite app_nil_r. exact I0.
    - rewrite app_assoc in Hr, Ht.
      assert (Hr' : in_range self m W Wq (H0 ++ H)).
      { intros H1 o' H2 E. apply (Hr H1 o' (H2 ++ [o])). rewrite E, <- app_assoc. reflexivity. }
      destruct IH as (g & Eg & Ig); auto.
      { eapply trusted_prefix; eassumption. }
      { intros H1 c H2 ->. apply (Hg H1 c (H2 ++ [o])). rewrite <- app_assoc. reflexivity. }
      rewrite map_app. unfold grun in *. rewrite foldM_app, Eg. cbn [bind map foldM].
      specialize (Hr (H0 ++ H) o [] eq_refl).
      destruct (step_ok o Ig Ht) as (g' & E & I).
      { destruct o; auto. split; [exact Hr|]. apply (Hg H c []). reflexivity. }
      rewrite E. cbn [bind]. exists g'. split; [reflexivity|]. rewrite app_assoc. exact I.
  Qed.
End Runs.

(** ** Calculations on fixed data *)
Definition loaded {X} (S : list X) (q : option (list X)) : list (gcall X) :=
  CSeries S :: match q with Some q => [CQuery q] | None => [] end.

Section Batch.
  Variables (X : Type) (m : nat) (S : list X) (q : option (list X)).
  Let Q := query_or S q.
  Let self := self_of q.

  Lemma calc_only_points H : calc_only m S Q H -> s_points H = [] /\ q_points H = [].
  Proof.
    induction H as [|o H IH]; intro Hc; [auto|]. destruct IH as [I1 I2]. { intros o' Ho. apply Hc. right. exact Ho. }
    specialize (Hc o (or_introl eq_refl)). unfold s_points, q_points in *. destruct o; cbn [flat_map app]; tauto.
  Qed.
  Lemma calc_only_app H1 H2 : calc_only m S Q (H1 ++ H2) <-> calc_only m S Q H1 /\ calc_only m S Q H2.
  Proof.
    unfold calc_only. split.
    - intro H. split; intros o Ho; apply (H o); apply in_or_app; auto.
    - intros [A B] o Ho. apply in_app_or in Ho as [Ho|Ho]; [exact (A o Ho)|exact (B o Ho)].
  Qed.
  Lemma wS_batch H : calc_only m S Q H -> wS (length S) (loaded S q ++ H) = S.
  Proof.
    intro Hc. unfold wS, s_points, loaded. rewrite flat_map_app. destruct (calc_only_points Hc) as [E _]. unfold s_points in E. rewrite E.
    rewrite app_nil_r. cbn [flat_map]. unfold lastn. case q; intros; cbn [flat_map]; rewrite !app_nil_r, Nat.sub_diag; reflexivity.
  Qed.
  Lemma wQ_batch H : calc_only m S Q H -> wQ self (length S) (length Q) (loaded S q ++ H) = Q.
  Proof.
    intro Hc. unfold wQ. pose proof (wS_batch Hc) as E1. pose proof (proj2 (calc_only_points Hc)) as E2. unfold Q, self, query_or, self_of in *.
    clear Hc. destruct q as [q'|]; [|exact E1]. unfold q_points, loaded in *. rewrite flat_map_app, E2, app_nil_r.
    cbn [flat_map]. rewrite app_nil_r. unfold lastn. cbn [app]. rewrite Nat.sub_diag. reflexivity.
  Qed.
  Lemma in_range_batch H : calc_only m S Q H -> in_range self m (length S) (length Q) (loaded S q ++ H).
  Proof.
    intros Hc H1 o H2 E.
    assert (D : (exists H1', H1 = loaded S q ++ H1' /\ H = H1' ++ o :: H2) \/ match o with CSeries _ => True | CQuery _ => self = false | _ => False end).
    { unfold loaded, self, self_of in *. destruct q as [q'|].
      - destruct H1 as [|o1 [|o2 H1]]; cbn [app] in E; inversion E; subst; auto. left. exists H1. auto.
      - destruct H1 as [|o1 H1]; cbn [app] in E; inversion E; subst; auto. left. exists H1. auto. }
    destruct D as [(H1' & -> & ->)|D].
    - pose proof Hc as Hc0. apply calc_only_app in Hc as [Hc1 Hc2]. specialize (Hc2 o (or_introl eq_refl)).
      rewrite wS_batch, wQ_batch by exact Hc1. destruct o; auto; contradiction.
    - destruct o; auto; contradiction.
  Qed.
  Lemma trusted_batch H : calc_only m S Q H -> trusted self (length S) (loaded S q ++ H).
  Proof.
    intro Hc. unfold trusted. unfold self, self_of, loaded. destruct q as [q'|] eqn:Eq; [|left; reflexivity]. right. left. intros H1 xs H2 E. left.
    destruct H1 as [|o1 [|o2 H1]]; cbn [app] in E; inversion E; subst; auto. exfalso.
    specialize (Hc (CSeries xs)). apply Hc. apply in_or_app. right. left. reflexivity.
  Qed.
End Batch.

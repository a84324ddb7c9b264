(** * Properties C76, C77: calculators after exceptions *)
From Coq Require Import QArith Permutation.
From Verif Require Import Np NpFacts Mat MUtil SLog MProfile MCounters MCalc SCalc SMixed SEnd PropCalc MRaise SRaise PRaise PRaiseEnd Inst.
Set Implicit Arguments.
Open Scope nat_scope.

(** C76. The model with exceptions (MRaise.v) and the one without (MCalc.v) agree. *)
Theorem C76_same : forall A X G C (g_col : G -> nat -> G * res (list (Np.num A))) g_diag (c_step : C -> event (Np.num A) -> C * option exn) set_order (a : any X G C) call,
  any_call (plain_g g_col) (plain_g g_diag) (plain_c c_step) set_order a call =
  match any_call_x g_col g_diag c_step set_order a call with (a', None) => Ok a' | (_, Some e) => Err e end.
Proof.
  intros. pose proof (any_call_same g_col g_diag c_step set_order a call) as H. destruct (any_call_x g_col g_diag c_step set_order a call) as [a' [e|]]; exact H.
Qed.
Print Assumptions C76_same.

(** Any calls, any exceptions of generators and consumers, caught by the client, who goes on with the same calculator.  Every
    consumer has received right calls only, and in full those of all diagonals (and, unless a call skipped some, columns) that the
    calculator regards as done.  Missing: every cell is delivered at most once (refuted below). *)
Theorem C76_partial : forall A X G C (g_col : G -> nat -> G * res (list (Np.num A))) g_diag (c_step : C -> event (Np.num A) -> C * option exn) set_order shuffle m (series : list (list X)) query buffer h w
    (a0 : any X G C) gens cs I Fc Fd calls,
  built shuffle m series query buffer h w a0 -> orders_sets set_order -> ids_ok gens cs -> gens_ok I gens ->
  may_give g_col I Fc (fun c => c < w) (fun _ => h) -> may_give g_diag I Fd (on_matrix h w) (fun d => Z.to_nat (dlen h w d)) ->
  let a := persist g_col g_diag c_step set_order calls (with_parts a0 gens cs) in
  an_order a = an_order a0 /\ an_next a <= length (an_order a0) /\ an_done a = size h w (firstn (an_next a) (an_order a0)) /\
  Forall2 (fun c c' => snd c' = snd c /\ exists evs, fst c' = after c_step evs (fst c) /\
    Forall (right_call Fc Fd (is_self query) (ca_tmb (an_calc a0)) w (an_order a0) (snd c)) evs /\
    (forall d, In d (firstn (an_next a) (an_order a0)) -> in_full c_step (diagonal_calls Fd (is_self query) [d] (snd c)) evs (fst c)) /\
    (Forall from_last calls -> forall j, (Z.of_nat j <= ca_last (an_calc a))%Z -> in_full c_step (column_calls Fc (ca_tmb (an_calc a0)) j 1 (snd c)) evs (fst c)))
    cs (ca_cons (an_calc a)).
Proof. intros. eapply persist_told; eassumption. Qed.
Print Assumptions C76_partial.

(** A complete call that returns normally completes the calculation, whatever happened before. *)
Theorem C76_finish : forall A X G C (g_col : G -> nat -> G * res (list (Np.num A))) g_diag (c_step : C -> event (Np.num A) -> C * option exn) set_order shuffle m (series : list (list X)) query buffer h w
    (a0 : any X G C) gens cs I Fc Fd calls a',
  built shuffle m series query buffer h w a0 -> orders_sets set_order -> ids_ok gens cs -> gens_ok I gens ->
  may_give g_col I Fc (fun c => c < w) (fun _ => h) -> may_give g_diag I Fd (on_matrix h w) (fun d => Z.to_nat (dlen h w d)) ->
  any_call_x g_col g_diag c_step set_order (persist g_col g_diag c_step set_order calls (with_parts a0 gens cs)) (ADiags never (RFloat (Fin 1%Q))) = (a', None) ->
  an_next a' = length (an_order a0) /\ an_done a' = size h w (an_order a0).
Proof.
  intros until a'. intros HB HSO Hi Hg Hc Hd E. assert (Hn : an_next a' = length (an_order a0)) by (eapply persist_finish; try eassumption).
  split; [exact Hn|]. destruct (@C76_partial A X G C g_col g_diag c_step set_order shuffle m series query buffer h w a0 gens cs I Fc Fd (calls ++ [ADiags never (RFloat (Fin 1%Q))])) as (_ & _ & H & _); try assumption.
  unfold persist in H, E. rewrite fold_left_app in H. cbn [fold_left] in H. rewrite E in H. cbn [fst] in H. rewrite Hn, firstn_all in H. exact H.
Qed.
Print Assumptions C76_finish.

(** ** Example consumers: a matrix profile, a ThresholdCounter, and one that raises once *)
Inductive cons3 : Type := Pf (s : @mplr Z) | Th (s : @tc Z) | Fl (n : option nat).
Definition step3 (c : cons3) (e : event (Np.num Z)) : cons3 * option exn :=
  match c with
  | Pf s => match mplr_step s e with Ok s' => (Pf s', None) | Err x => (c, Some x) end
  | Th s => match tc_step s e with Ok s' => (Th s', None) | Err x => (c, Some x) end
  | Fl (Some 0) => (Fl None, Some ValueError)
  | Fl (Some (S n)) => (Fl (Some n), None)
  | Fl None => (Fl None, None)
  end.
(** A generator whose call number [g] (from 0) raises *)
Definition gen3_diag (h w : nat) (g : option nat) (d : Z) : option nat * res (list (Np.num Z)) :=
  match g with Some 0 => (None, Err ValueError) | Some (S n) => (Some n, Ok (diag_of tab h w d)) | None => (None, Ok (diag_of tab h w d)) end.
Definition gen3_col (h : nat) (g : option nat) (c : nat) : option nat * res (list (Np.num Z)) := (g, Ok (map (fun r => tab (Z.of_nat r) (Z.of_nat c)) (seq 0 h))).
Definition any3 := any Z (option nat) cons3.
Definition some_any3 : any3 := mkAny (mkCalc true 0 0 0 0 0 [] [] 0) [] [] [] 0 0 0.
Definition join3 : any3 := get some_any3 (any_new (option nat) cons3 (fun l => rev l) 2 [[3; 4; 6; 1]%Z] (Some [[3; 1; 4]%Z]) None).
Definition complete3 := ADiags never (RFloat (Fin 1%Q)).
Definition run3 g cs calls := persist (gen3_col 2) (gen3_diag 2 3) step3 dedup calls (with_parts join3 [(g, 0)] cs).
Definition counter3 := Th (tc_init [Fz 100] 2 3).

Lemma join3_built : built (fun l => rev l) 2 [[3; 4; 6; 1]%Z] (Some [[3; 1; 4]%Z]) None 2 3 join3.
Proof. split; [intro l; apply Permutation_sym, Permutation_rev|]. repeat split; cbn; lia. Qed.
Lemma gen3_diag_gives : may_give (gen3_diag 2 3) (fun _ _ => True) (fun _ => diag_of tab 2 3) (on_matrix 2 3) (fun d => Z.to_nat (dlen 2 3 d)).
Proof.
  intros id g d _ _. split; [exact Logic.I|]. intros v E. assert (v = diag_of tab 2 3 d) as -> by (destruct g as [[|g]|]; cbn [gen3_diag snd] in E; congruence). split; [reflexivity|]. unfold diag_of. rewrite map_length, seq_length. reflexivity.
Qed.
Lemma gen3_col_gives : may_give (gen3_col 2) (fun _ _ => True) (fun _ c => map (fun r => tab (Z.of_nat r) (Z.of_nat c)) (seq 0 2)) (fun c => c < 3) (fun _ => 2).
Proof. intros id g c _ _. split; [exact Logic.I|]. intros v E. cbn [gen3_col snd] in E. injection E as <-. split; reflexivity. Qed.

(** "At most once" fails: the consumers before the one that raised receive the diagonal again.  Each of the two rows counts once;
    the ThresholdCounter of column 1 counts three values in two rows. *)
Theorem C76_refuted : exists (calls : list acall) (a a' : any3) t t',
  a = run3 None [(counter3, [0]); (Fl None, [0])] calls /\ ca_cons (an_calc a) = [(Th t, [0]); (Fl None, [0])] /\ tc_counts t = [[2; 2; 2]] /\
  a' = run3 None [(counter3, [0]); (Fl (Some 1), [0])] calls /\ ca_cons (an_calc a') = [(Th t', [0]); (Fl None, [0])] /\ tc_counts t' = [[2; 3; 3]] /\
  an_next a = 4 /\ an_next a' = 4.
Proof.
  exists [complete3; complete3]. do 4 eexists. split; [reflexivity|]. split; [vm_compute; reflexivity|]. split; [vm_compute; reflexivity|]. split; [reflexivity|].
  split; [vm_compute; reflexivity|]. repeat split; vm_compute; reflexivity.
Qed.
Print Assumptions C76_refuted.

(** A generator raises at its third diagonal, a consumer at its first call: the third call completes the calculation. *)
Example C76_example : map snd [any_call_x (gen3_col 2) (gen3_diag 2 3) step3 dedup (run3 (Some 3) [(Fl (Some 0), [0]); (counter3, [0])] []) complete3;
    any_call_x (gen3_col 2) (gen3_diag 2 3) step3 dedup (run3 (Some 3) [(Fl (Some 0), [0]); (counter3, [0])] [complete3]) complete3;
    any_call_x (gen3_col 2) (gen3_diag 2 3) step3 dedup (run3 (Some 3) [(Fl (Some 0), [0]); (counter3, [0])] [complete3; complete3]) complete3] = [Some ValueError; Some ValueError; None] /\
  an_next (run3 (Some 3) [(Fl (Some 0), [0]); (counter3, [0])] [complete3; complete3]) = 2 /\
  map fst (ca_cons (an_calc (run3 (Some 3) [(Fl (Some 0), [0]); (counter3, [0])] [complete3; complete3; complete3]))) = [Fl None; Th (mkTc [Fz 100] [[2; 2; 2]])].
Proof. repeat split; vm_compute; reflexivity. Qed.

(** C77. A MatrixProfileLR among the consumers: once the calculation is complete (all diagonals, or all columns), its profile is that
    of the distance matrix [D], whatever exceptions were raised (by generators and by other consumers) and caught on the way. *)
Theorem C77_profile : forall A (NA : NumOps A) (OL : OrdLaws A) X G C (g_col : G -> nat -> G * res (list (Np.num A))) g_diag (c_step : C -> event (Np.num A) -> C * option exn) set_order
    shuffle m (series : list (list X)) query buffer h w (a0 : any X G C) gens cs I Fc Fd calls (inj : @mplr A -> C) k id (D : nat -> nat -> Np.num A),
  orders_sets set_order -> built shuffle m series query buffer h w a0 -> ids_ok gens cs -> gens_ok I gens ->
  may_give g_col I Fc (fun c => c < w) (fun _ => h) -> may_give g_diag I Fd (on_matrix h w) (fun d => Z.to_nat (dlen h w d)) ->
  (forall s e s', mplr_step s e = Ok s' -> c_step (inj s) e = (inj s', None)) -> nth_error cs k = Some (inj (mplr_init h w), [id]) ->
  (forall j, j < w -> Fc id j = map (fun r => D r j) (seq 0 h)) -> (forall d, on_matrix h w d -> Fd id d = diag_of (fun r c => D (Z.to_nat r) (Z.to_nat c)) h w d) ->
  (forall r c, r < h -> c < w -> isnan (D r c) = false) -> (query = None -> forall r c, r < h -> c < h -> D r c = D c r) ->
  let a := persist g_col g_diag c_step set_order calls (with_parts a0 gens cs) in
  an_next a = length (an_order a0) \/ (Forall from_last calls /\ ca_last (an_calc a) = (Z.of_nat w - 1)%Z) ->
  exists s, nth_error (ca_cons (an_calc a)) k = Some (inj s, [id]) /\ profile_ok D w (outside (buffer_used query m buffer) h) (mplr_mp s, mplr_idx s).
Proof. intros. eapply persist_profile; eassumption. Qed.
Print Assumptions C77_profile.

(** The profile after a generator and a consumer raised, by diagonals and by columns; the hypotheses hold in this case. *)
Example C77_example : let cs := [(Pf (mplr_init 2 3), [0]); (Fl (Some 2), [0])] in
  let profile a := match ca_cons (an_calc a) with (Pf s, _) :: _ => (mplr_mp s, mplr_idx s) | _ => ([], []) end in
  let calls := [complete3; complete3; complete3] in let cols := [ACols never None (RFloat (Fin 1%Q)); ACols never None (RFloat (Fin 1%Q))] in
  an_next (run3 (Some 1) cs calls) = length (an_order join3) /\ profile (run3 (Some 1) cs calls) = ([Fz 0; Fz 1; Fz 2], [0; 0; 0]%Z) /\
  ca_last (an_calc (run3 (Some 1) cs [ACols never None (RFloat (Fin 1%Q))])) = 1%Z /\
  ca_last (an_calc (run3 (Some 1) cs cols)) = 2%Z /\ profile (run3 (Some 1) cs cols) = ([Fz 0; Fz 1; Fz 2], [0; 0; 0]%Z) /\
  exists s, nth_error (ca_cons (an_calc (run3 (Some 1) cs calls))) 0 = Some (Pf s, [0]) /\ profile_ok (fun r c => tab (Z.of_nat r) (Z.of_nat c)) 3 (outside (-1) 2) (mplr_mp s, mplr_idx s).
Proof.
  intros cs profile calls cols. do 5 (split; [vm_compute; reflexivity|]).
  eapply (@C77_profile Z NumZ OrdZ) with (I := fun _ _ => True) (query := Some [[3; 1; 4]%Z]) (1 := dedup_orders) (2 := join3_built) (5 := gen3_col_gives) (6 := gen3_diag_gives).
  - intros c ids id [E|[E|[]]] Hid; injection E as <- <-; destruct Hid as [<-|[]]; cbn; lia.
  - intros id g d _. exact Logic.I.
  - intros s e s' E. cbn [step3]. rewrite E. reflexivity.
  - reflexivity.
  - reflexivity.
  - intros d _. unfold diag_of. apply map_ext_in. intros k Hk. rewrite !Z2Nat.id by lia. reflexivity.
  - reflexivity.
  - discriminate.
  - left. vm_compute. reflexivity.
Qed.

(** * Property C103: where an append that raises leaves a StreamingCalculator *)
From Coq Require Import QArith.
From Verif Require Import Np NpFacts Inst Mat MUtil SLog MCalc MRaise SStream MStreamRaise.
Set Implicit Arguments.
Open Scope nat_scope.

(** A loop [for x in l: x.method()] ended, with exception [e] or without: the objects before the one that raised have made the call, that one is in the state in
    which it raised, and those after it have not been called. *)
Definition each {T} (f : T -> T * option exn) (l l' : list T) : Prop := Forall2 (fun x x' => f x = (x', None)) l l'.
Definition loop {T} (f : T -> T * option exn) (l l' : list T) (e : option exn) : Prop :=
  match e with
  | None => each f l l'
  | Some _ => exists before before' x x' after, l = before ++ x :: after /\ l' = before' ++ x' :: after /\ each f before before' /\ f x = (x', e)
  end.
Definition on_fst {T U} (f : T -> T * option exn) (x : T * U) : (T * U) * option exn := (fst (f (fst x)), snd x, snd (f (fst x))).

Lemma loop_nil : forall T (f : T -> T * option exn), loop f [] [] None.
Proof. constructor. Qed.
Lemma loop_raise : forall T (f : T -> T * option exn) x x' l e, f x = (x', Some e) -> loop f (x :: l) (x' :: l) (Some e).
Proof. intros T f x x' l e H. exists [], [], x, x', l. repeat split; [constructor|exact H]. Qed.
Lemma loop_cons : forall T (f : T -> T * option exn) x x' l l' e, f x = (x', None) -> loop f l l' e -> loop f (x :: l) (x' :: l') e.
Proof.
  intros T f x x' l l' [e|] H HL; cbn [loop] in *.
  - destruct HL as (b & b' & y & y' & a & -> & -> & H1 & H2). exists (x :: b), (x' :: b'), y, y', a. repeat split; [constructor; [exact H|exact H1]|exact H2].
  - constructor; assumption.
Qed.

Section State.
  Context {A : Type}.
  Variables (X G C : Type).
  Variable g_app_s g_app_q : G -> list X -> G * option exn.
  Variable c_step : C -> event (Np.num A) -> C * option exn.

  (** The generators appended the rows of their channels; the consumers were told of the shift. *)
  Definition append_to (g_app : G -> list X -> G * option exn) (rows : list (list X)) (gd : G * nat) : (G * nat) * option exn := on_fst (fun g => g_app g (nth (snd gd) rows [])) gd.
  Definition tell (e : event (Np.num A)) : C * list nat -> (C * list nat) * option exn := on_fst (fun c => c_step c e).

  Lemma gens_loop : forall g_app rows gens, (forall g d, In (g, d) gens -> d < length rows) ->
    loop (append_to g_app rows) gens (fst (append_gens_x g_app rows gens)) (snd (append_gens_x g_app rows gens)).
  Proof.
    intros g_app rows gens. induction gens as [|[g d] gens IH]; intro Hd; [apply loop_nil|]. cbn [append_gens_x].
    assert (E : getitem rows d = Ok (nth d rows [])) by (unfold getitem; rewrite (nth_error_nth' rows [] (Hd g d (or_introl eq_refl))); reflexivity). rewrite E.
    destruct (g_app g (nth d rows [])) as [g' [x|]] eqn:Eg.
    - cbn [fst snd]. apply loop_raise. unfold append_to, on_fst. cbn [fst snd]. rewrite Eg. reflexivity.
    - specialize (IH (fun g0 d0 H0 => Hd g0 d0 (or_intror H0))). destruct (append_gens_x g_app rows gens) as [r e]. cbn [fst snd] in *.
      apply loop_cons; [|exact IH]. unfold append_to, on_fst. cbn [fst snd]. rewrite Eg. reflexivity.
  Qed.
  Lemma cons_loop : forall e cns, loop (tell e) cns (fst (shift_all_x c_step e cns)) (snd (shift_all_x c_step e cns)).
  Proof.
    intros e cns. induction cns as [|[c ids] cns IH]; [apply loop_nil|]. cbn [shift_all_x].
    destruct (c_step c e) as [c' [x|]] eqn:Ec.
    - cbn [fst snd]. apply loop_raise. unfold tell, on_fst. cbn [fst snd]. rewrite Ec. reflexivity.
    - destruct (shift_all_x c_step e cns) as [r y]. cbn [fst snd] in *. apply loop_cons; [|exact IH]. unfold tell, on_fst. cbn [fst snd]. rewrite Ec. reflexivity.
  Qed.
  Lemma window_lost : forall W sp n, window_shift (Z.of_nat W) (Z.of_nat sp) (Z.of_nat n) = Z.of_nat (lost W (sp + n) - lost W sp).
  Proof. intros W sp n. unfold window_shift, lost. destruct (Z.ltb_spec (Z.of_nat sp) (Z.of_nat W)); lia. Qed.
End State.

(** C103. A StreamingCalculator after [append_series] of a block of n points per channel, whether it returned or raised [e].  If a generator raised, no point is counted
    and the consumers know of nothing, but the generators before it have appended the block.  Otherwise the block is counted.  If k > 0 points left the window, the consumers
    shifted (for a self-join first all of them the series, then all of them the query) up to the one that raised, and the last column calculated moves only if none raised. *)
Theorem C103_series : forall A X G C (g_app_s : G -> list X -> G * option exn) (c_step : C -> event (Np.num A) -> C * option exn) (t : stm G C) rows n W sp,
  let s := st_calc t in
  length rows = ca_ndim s -> (forall g d, In (g, d) (ca_gens s) -> d < ca_ndim s) -> length (hd [] rows) = n -> (ca_ns s + ca_m s - 1)%Z = Z.of_nat W -> st_sp t = Z.of_nat sp ->
  exists gens cns last counted e, let k := lost W (sp + n) - lost W sp in
  append_series_x g_app_s c_step t (Pts rows) = (mkStm (ca_upd s gens cns last) (Z.of_nat counted) (st_qp t), e) /\
  exists eg, loop (append_to g_app_s rows) (ca_gens s) gens eg /\
    match eg with
    | Some _ => e = eg /\ cns = ca_cons s /\ last = ca_last s /\ counted = sp
    | None => counted = sp + n /\
        if k =? 0 then e = None /\ cns = ca_cons s /\ last = ca_last s
        else exists cns1 e1, loop (tell c_step (EShiftS k)) (ca_cons s) cns1 e1 /\
          (if match e1 with Some _ => true | None => negb (ca_self s) end then cns = cns1 /\ e = e1
           else loop (tell c_step (EShiftQ k)) cns1 cns e) /\
          last = match e with Some _ => ca_last s | None => Z.max (-1) (ca_last s - Z.of_nat k) end
    end.
Proof.
  intros A X G C g_app_s c_step t rows n W sp s Hr Hd Hn HW Hsp. cbv zeta.
  set (k := lost W (sp + n) - lost W sp).
  assert (Hk : window_shift (ca_ns s + ca_m s - 1) (st_sp t) (Z.of_nat (length (hd [] rows))) = Z.of_nat k) by (rewrite HW, Hsp, Hn; apply window_lost).
  pose proof (gens_loop g_app_s rows (ca_gens s) ltac:(rewrite Hr; exact Hd)) as HG.
  unfold append_series_x. cbv zeta. fold s. unfold as_rows. rewrite Hr, Nat.eqb_refl. rewrite Hk.
  destruct (append_gens_x g_app_s rows (ca_gens s)) as [gens [x|]]; cbn [fst snd] in HG.
  - exists gens, (ca_cons s), (ca_last s), sp, (Some x). split; [rewrite Hsp; reflexivity|]. exists (Some x). split; [exact HG|]. repeat split.
  - rewrite Hn, Hsp, <- Nat2Z.inj_add.
    assert (Ez : (Z.of_nat k =? 0)%Z = (k =? 0)) by (destruct (Nat.eqb_spec k 0) as [->|]; [reflexivity|apply Z.eqb_neq; lia]). rewrite Ez.
    destruct (k =? 0) eqn:E0.
    { exists gens, (ca_cons s), (ca_last s), (sp + n), None. split; [reflexivity|]. exists None. split; [exact HG|]. repeat split. }
    rewrite Nat2Z.id.
    pose proof (cons_loop c_step (EShiftS k) (ca_cons s)) as H1. destruct (shift_all_x c_step (EShiftS k) (ca_cons s)) as [cns1 [x|]]; cbn [fst snd] in H1.
    { exists gens, cns1, (ca_last s), (sp + n), (Some x). split; [reflexivity|]. exists None. split; [exact HG|]. split; [reflexivity|]. exists cns1, (Some x). repeat split. exact H1. }
    destruct (ca_self s) eqn:Es.
    + pose proof (cons_loop c_step (EShiftQ k) cns1) as H2. destruct (shift_all_x c_step (EShiftQ k) cns1) as [cns2 [x|]]; cbn [fst snd] in H2.
      * exists gens, cns2, (ca_last s), (sp + n), (Some x). split; [reflexivity|]. exists None. split; [exact HG|]. split; [reflexivity|]. exists cns1, None. cbn [negb]. repeat split; assumption.
      * exists gens, cns2, (Z.max (-1) (ca_last s - Z.of_nat k)), (sp + n), None. split; [reflexivity|]. exists None. split; [exact HG|]. split; [reflexivity|]. exists cns1, None. cbn [negb]. repeat split; assumption.
    + exists gens, cns1, (Z.max (-1) (ca_last s - Z.of_nat k)), (sp + n), None. split; [reflexivity|]. exists None. split; [exact HG|]. split; [reflexivity|]. exists cns1, None. cbn [negb]. repeat split; assumption.
Qed.
Print Assumptions C103_series.

(** C103, [append_query]: the same, but the last column calculated never moves; a self-join refuses without changing anything. *)
Theorem C103_query : forall A X G C (g_app_q : G -> list X -> G * option exn) (c_step : C -> event (Np.num A) -> C * option exn) (t : stm G C) rows n W qp,
  let s := st_calc t in
  length rows = ca_ndim s -> (forall g d, In (g, d) (ca_gens s) -> d < ca_ndim s) -> length (hd [] rows) = n -> (ca_nq s + ca_m s - 1)%Z = Z.of_nat W -> st_qp t = Z.of_nat qp -> ca_self s = false ->
  exists gens cns counted e, let k := lost W (qp + n) - lost W qp in
  append_query_x g_app_q c_step t (Pts rows) = (mkStm (ca_upd s gens cns (ca_last s)) (st_sp t) (Z.of_nat counted), e) /\
  exists eg, loop (append_to g_app_q rows) (ca_gens s) gens eg /\
    match eg with
    | Some _ => e = eg /\ cns = ca_cons s /\ counted = qp
    | None => counted = qp + n /\ if k =? 0 then e = None /\ cns = ca_cons s else loop (tell c_step (EShiftQ k)) (ca_cons s) cns e
    end.
Proof.
  intros A X G C g_app_q c_step t rows n W qp s Hr Hd Hn HW Hqp Es. cbv zeta.
  set (k := lost W (qp + n) - lost W qp).
  assert (Hk : window_shift (ca_nq s + ca_m s - 1) (st_qp t) (Z.of_nat (length (hd [] rows))) = Z.of_nat k) by (rewrite HW, Hqp, Hn; apply window_lost).
  pose proof (gens_loop g_app_q rows (ca_gens s) ltac:(rewrite Hr; exact Hd)) as HG.
  unfold append_query_x. cbv zeta. fold s. rewrite Es. unfold as_rows. rewrite Hr, Nat.eqb_refl. rewrite Hk.
  destruct (append_gens_x g_app_q rows (ca_gens s)) as [gens [x|]]; cbn [fst snd] in HG.
  - exists gens, (ca_cons s), qp, (Some x). split; [rewrite Hqp; reflexivity|]. exists (Some x). split; [exact HG|]. repeat split.
  - rewrite Hn, Hqp, <- Nat2Z.inj_add.
    assert (Ez : (Z.of_nat k =? 0)%Z = (k =? 0)) by (destruct (Nat.eqb_spec k 0) as [->|]; [reflexivity|apply Z.eqb_neq; lia]). rewrite Ez.
    destruct (k =? 0) eqn:E0.
    { exists gens, (ca_cons s), (qp + n), None. split; [reflexivity|]. exists None. split; [exact HG|]. repeat split. }
    rewrite Nat2Z.id.
    pose proof (cons_loop c_step (EShiftQ k) (ca_cons s)) as H1. destruct (shift_all_x c_step (EShiftQ k) (ca_cons s)) as [cns1 x]; cbn [fst snd] in H1.
    exists gens, cns1, (qp + n), x. split; [reflexivity|]. exists None. split; [exact HG|]. split; [reflexivity|]. exact H1.
Qed.
Print Assumptions C103_query.

(** C103. What is refused for its shape, or for being a self-join, changes nothing. *)
Theorem C103_refused : forall A X G C (g_app_s g_app_q : G -> list X -> G * option exn) (c_step : C -> event (Np.num A) -> C * option exn) (t : stm G C) (v : points X),
  let s := st_calc t in let wrong := match v with Pt p => length p <> ca_ndim s | Pts rows => length rows <> ca_ndim s end in
  (wrong -> append_series_x g_app_s c_step t v = (t, Some RuntimeError)) /\
  (wrong \/ ca_self s = true -> append_query_x g_app_q c_step t v = (t, Some RuntimeError)).
Proof.
  intros A X G C g_app_s g_app_q c_step t v s wrong.
  assert (H : wrong -> as_rows (ca_ndim s) v = Err RuntimeError) by (intro Hw; unfold as_rows; destruct v as [p|p]; cbn in Hw; rewrite (proj2 (Nat.eqb_neq _ _) Hw); reflexivity).
  split; [intro Hw; unfold append_series_x; cbv zeta; fold s; rewrite (H Hw); reflexivity|].
  intros [Hw|Es]; unfold append_query_x; cbv zeta; fold s; [rewrite (H Hw)|rewrite Es; reflexivity]. destruct (ca_self s); reflexivity.
Qed.
Print Assumptions C103_refused.

(** C103. One point per channel is the block of one point. *)
Theorem C103_point : forall A X G C (g_app_s g_app_q : G -> list X -> G * option exn) (c_step : C -> event (Np.num A) -> C * option exn) (t : stm G C) (p : list X),
  append_series_x g_app_s c_step t (Pt p) = append_series_x g_app_s c_step t (Pts (map (fun x => [x]) p)) /\
  append_query_x g_app_q c_step t (Pt p) = append_query_x g_app_q c_step t (Pts (map (fun x => [x]) p)).
Proof. intros. unfold append_series_x, append_query_x, as_rows. rewrite map_length. split; reflexivity. Qed.
Print Assumptions C103_point.

(** Two generators that count their points, of which the second keeps the first point of a block and raises for the rest; two consumers that log their events, the second raising
    for [shift_query].  A window of 4 points, 3 of which have come, and two points more. *)
Definition cx_app (g : nat * nat) (row : list Z) : (nat * nat) * option exn :=
  if (snd g <? length row) then ((fst g + snd g, snd g), Some ValueError) else ((fst g + length row, snd g), None).
Definition cx_step (c : bool * list (event (Np.num Z))) (e : event (Np.num Z)) : (bool * list (event (Np.num Z))) * option exn :=
  ((fst c, snd c ++ [e]), match e with EShiftQ _ => if fst c then Some IndexError else None | _ => None end).
Definition cx_t (lim : nat) : stm (nat * nat) (bool * list (event (Np.num Z))) :=
  mkStm (mkCalc true 2 1 3 3 0 [((3, 9), 0); ((3, lim), 0); ((3, 9), 0)] [((false, []), [0]); ((true, []), [1]); ((false, []), [2])] 2) 3 (-1).
Example C103_generator_case : append_series_x cx_app cx_step (cx_t 1) (Pts [[5%Z; 6%Z]]) =
  (mkStm (mkCalc true 2 1 3 3 0 [((5, 9), 0); ((4, 1), 0); ((3, 9), 0)] [((false, []), [0]); ((true, []), [1]); ((false, []), [2])] 2) 3 (-1), Some ValueError).
Proof. reflexivity. Qed.
Example C103_consumer_case : append_series_x cx_app cx_step (cx_t 9) (Pts [[5%Z; 6%Z]]) =
  (mkStm (mkCalc true 2 1 3 3 0 [((5, 9), 0); ((5, 9), 0); ((5, 9), 0)] [((false, [EShiftS 1; EShiftQ 1]), [0]); ((true, [EShiftS 1; EShiftQ 1]), [1]); ((false, [EShiftS 1]), [2])] 2) 5 (-1), Some IndexError).
Proof. reflexivity. Qed.

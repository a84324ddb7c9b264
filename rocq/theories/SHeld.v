(** * SHeld: which delivered cells each entry of a contextual matrix profile stands for *)
From Verif Require Import Np Mat SLog MContext SContext.
Set Implicit Arguments.
Open Scope nat_scope.

Section Held.
  Context {A : Type} {NA : NumOps A}.
  Notation num := (Np.num A).
  (** A set of delivered cells: row, column and value, in absolute positions *)
  Definition cells := Z -> Z -> num -> Prop.
  Definition no_cells : cells := fun _ _ _ => False.
  Definition contents := nat -> nat -> cells.

  (** [v] is the smallest value of the set and (mq, ms) the position of a cell that has it; +inf and (-1, -1) if no value is below +inf *)
  Definition best_of (K : cells) (v : num) (mq ms : Z) : Prop :=
    (v = PInf /\ mq = (-1)%Z /\ ms = (-1)%Z /\ forall r c x, K r c x -> fltb x PInf = false) \/
    (fltb v PInf = true /\ K mq ms v /\ forall r c x, K r c x -> fltb x v = false).

  Context {M : Type} (MO : ManagerOps M).
  (** A window of [h] rows; [H] x [W] contexts; [QA i], [SA j]: the positions of query context i and series context j *)
  Variables (h H W : nat) (QA SA : nat -> Z -> Prop).

  Record held := mkHeld {
    hd_man : M;
    hd_kq : nat; hd_ks : nat;            (* contexts dropped so far *)
    hd_qs : Z; hd_ss : Z;                (* positions dropped so far *)
    hd_shown : contents;                 (* what the entries stand for *)
    hd_beneath : option contents         (* the table that the next dropped series context brings back, if it is another one *)
  }.
  Definition held_new (m : M) : held := mkHeld m 0 0 0 0 (fun _ _ => no_cells) None.
  (** Whether a column of [n] values ends before a query context of the window begins, and has a series context *)
  Definition missing (m : M) (c n : nat) : res bool :=
    do c1s <- man_series MO m (Z.of_nat c) (Z.of_nat c + 1);
    do c0s <- man_query MO m 0 (Z.of_nat h);
    Ok (negb (length c1s =? 0) && existsb (fun c0 => (Z.of_nat n <=? c_start c0)%Z) c0s).
  Definition held_add (s : held) (e : event num) : held :=
    mkHeld (hd_man s) (hd_kq s) (hd_ks s) (hd_qs s) (hd_ss s)
      (fun i j r c x => hd_shown s i j r c x \/ In (r, c, x) (event_cells (hd_qs s) (hd_ss s) e) /\ QA (i + hd_kq s) r /\ SA (j + hd_ks s) c)
      (hd_beneath s).
  Definition held_step (s : held) (e : event num) : res held :=
    match e with
    | EShiftQ n =>
        do r <- man_shift_query MO (hd_man s) n;
        let k := snd r in
        Ok (mkHeld (fst r) (hd_kq s + k) (hd_ks s) (hd_qs s + Z.of_nat n) (hd_ss s)
              (if 0 <? k then fun i j => if i + k <? H then hd_shown s ((i + (H - k mod H)) mod H) j else no_cells else hd_shown s)
              (if 0 <? k then Some (match hd_beneath s with Some b => b | None => hd_shown s end) else hd_beneath s))
    | EShiftS n =>
        do r <- man_shift_series MO (hd_man s) n;
        let k := snd r in
        Ok (mkHeld (fst r) (hd_kq s) (hd_ks s + k) (hd_qs s) (hd_ss s + Z.of_nat n)
              (if 0 <? k then fun i j => if j + k <? W then match hd_beneath s with Some b => b | None => hd_shown s end i (j + k) else no_cells else hd_shown s)
              (if 0 <? k then None else hd_beneath s))
    | ECol c vs =>
        do b <- missing (hd_man s) c (match vs with vals :: _ => length vals | [] => 0 end);
        if b then Err ValueError else Ok (held_add s e)
    | EDiag _ _ => Ok (held_add s e)
    end.
  Definition held_after (m : M) (es : list (event num)) : res held := foldM held_step es (held_new m).

  (** Events with complete diagonals, and columns that may be shorter than the window *)
  Definition any_event (w : nat) (e : event num) : Prop :=
    match e with
    | ECol c vs => c < w /\ exists vals rest, vs = vals :: rest /\ (forall x, In x vals -> isnan x = false) /\ 0 < length vals <= h
    | _ => full_event h w e
    end.
End Held.

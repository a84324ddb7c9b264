(** * Np: the fragment of Python/NumPy semantics used by the model.

    Arrays are lists, exceptions are values, numbers are [num A] (IEEE special
    values on top of an exact finite carrier [A]). *)
From Coq Require Export List ZArith Lia Bool Arith.
Export ListNotations.
Set Implicit Arguments.

(** ** Exceptions as values *)
Inductive exn : Type :=
  ValueError | RuntimeError | IndexError | TypeError | KeyError
| UnboundLocalError | NotImplementedError | ZeroDivisionError | AttributeError | OutOfFuel.

Inductive res (T : Type) : Type := Ok (t : T) | Err (e : exn).
Arguments Ok {T} t.
Arguments Err {T} e.

Definition bind {S T} (r : res S) (k : S -> res T) : res T :=
  match r with Ok s => k s | Err e => Err e end.
Notation "'do' x <- r ; k" := (bind r (fun x => k))
  (at level 200, x pattern, r at level 100, k at level 200).
Definition is_ok {T} (r : res T) : bool := match r with Ok _ => true | Err _ => false end.

(** Left fold that stops at the first exception: the meaning of a Python [for] loop body
    that may raise. *)
Fixpoint foldM {S T} (f : S -> T -> res S) (l : list T) (s : S) : res S :=
  match l with
  | [] => Ok s
  | x :: l' => do s' <- f s x; foldM f l' s'
  end.

Fixpoint mapM {S T} (f : S -> res T) (l : list S) : res (list T) :=
  match l with
  | [] => Ok []
  | x :: l' => do y <- f x; do ys <- mapM f l'; Ok (y :: ys)
  end.

(** ** Operations of the finite carrier *)
Class NumOps (A : Type) := {
  nzero : A;
  nadd : A -> A -> A;
  nsub : A -> A -> A;
  nmul : A -> A -> A;
  ndiv : A -> A -> A;
  nsqrt : A -> A;
  nltb : A -> A -> bool;
  nofZ : Z -> A
}.

(** The only laws the consumer and calculator theorems need: [<] is a strict total order. *)
Class OrdLaws (A : Type) {NA : NumOps A} := {
  nltb_irrefl : forall a, nltb a a = false;
  nltb_trans : forall a b c, nltb a b = true -> nltb b c = true -> nltb a c = true;
  nltb_total : forall a b, nltb a b = false -> nltb b a = false -> a = b
}.
Arguments OrdLaws A {NA}.

(** ** Floating-point-like numbers *)
Inductive num (A : Type) : Type := NaN | NInf | Fin (a : A) | PInf.
Arguments NaN {A}.
Arguments NInf {A}.
Arguments Fin {A} a.
Arguments PInf {A}.

Section Num.
  Context {A : Type} {NA : NumOps A}.

  Definition isnan (x : num A) : bool := match x with NaN => true | _ => false end.
  (** [np.isfinite] *)
  Definition isfinite (x : num A) : bool := match x with Fin _ => true | _ => false end.

  (** [x < y]; false as soon as one side is NaN. *)
  Definition fltb (x y : num A) : bool :=
    match x, y with
    | NaN, _ | _, NaN => false
    | NInf, NInf => false
    | NInf, _ => true
    | Fin _, NInf => false
    | Fin a, Fin b => nltb a b
    | Fin _, PInf => true
    | PInf, _ => false
    end.

  (** [x <= y]; false as soon as one side is NaN. *)
  Definition fleb (x y : num A) : bool :=
    match x, y with
    | NaN, _ | _, NaN => false
    | _, _ => negb (fltb y x)
    end.

  (** [x == y]; false as soon as one side is NaN. *)
  Definition feqb (x y : num A) : bool := fleb x y && fleb y x.

  (** Arithmetic on [num] (only what the consumers need). *)
  Definition fadd (x y : num A) : num A :=
    match x, y with
    | NaN, _ | _, NaN => NaN
    | PInf, NInf | NInf, PInf => NaN
    | PInf, _ | _, PInf => PInf
    | NInf, _ | _, NInf => NInf
    | Fin a, Fin b => Fin (nadd a b)
    end.
  (** division by a positive finite number *)
  Definition fdivp (x : num A) (d : A) : num A :=
    match x with Fin a => Fin (ndiv a d) | _ => x end.
  Definition fopp (x : num A) : num A :=
    match x with NaN => NaN | NInf => PInf | PInf => NInf | Fin a => Fin (nsub nzero a) end.
  (** [np.sqrt] of a finite number: NaN on negative input. *)
  Definition fsqrt (a : A) : num A := if nltb a nzero then NaN else Fin (nsqrt a).

  (** [np.argmin]: position of the first NaN if there is one, otherwise of the first minimum.
      This is NumPy's scan: a candidate replaces the current best [b] if [b] is not NaN and the
      candidate is NaN or smaller. *)
  Fixpoint argmin_from (l : list (num A)) (pos : nat) (b : num A) (bi : nat) : nat :=
    match l with
    | [] => bi
    | x :: l' =>
        if negb (isnan b) && (isnan x || fltb x b)
        then argmin_from l' (S pos) x pos
        else argmin_from l' (S pos) b bi
    end.
  Definition argmin (l : list (num A)) : res nat :=
    match l with [] => Err ValueError | x :: l' => Ok (argmin_from l' 1 x 0) end.

  (** [np.min]: NaN if any element is NaN, otherwise the smallest element. *)
  Fixpoint min_from (l : list (num A)) (b : num A) : num A :=
    match l with
    | [] => b
    | x :: l' => min_from l' (if negb (isnan b) && (isnan x || fltb x b) then x else b)
    end.
  Definition amin (l : list (num A)) : res (num A) :=
    match l with [] => Err ValueError | x :: l' => Ok (min_from l' x) end.

  (** [np.sort]: ascending, NaN last (stable insertion sort). *)
  Definition sort_le (x y : num A) : bool :=  (* x may stay before y *)
    if isnan y then true else if isnan x then false else fleb x y.
  Fixpoint insert (x : num A) (l : list (num A)) : list (num A) :=
    match l with
    | [] => [x]
    | y :: l' => if sort_le x y then x :: l else y :: insert x l'
    end.
  Fixpoint fsort (l : list (num A)) : list (num A) :=
    match l with [] => [] | x :: l' => insert x (fsort l') end.
End Num.

(** ** Python indexing and slicing *)

(** [l[i]] for a non-negative index *)
Definition getitem {T} (l : list T) (i : nat) : res T :=
  match nth_error l i with Some x => Ok x | None => Err IndexError end.

(** [l[i]] with Python's negative indices *)
Definition pyget {T} (l : list T) (i : Z) : res T :=
  let n := Z.of_nat (length l) in
  if (i <? - n)%Z || (n <=? i)%Z then Err IndexError
  else getitem l (Z.to_nat (if (i <? 0)%Z then i + n else i)).

(** Normalised slice bound: negative bounds count from the end, everything is clipped. *)
Definition norm_idx (n : nat) (i : Z) : nat :=
  Z.to_nat (Z.max 0 (Z.min (Z.of_nat n) (if (i <? 0)%Z then i + Z.of_nat n else i))).

(** [l[lo:hi]] for non-negative bounds *)
Definition lslice {T} (l : list T) (lo hi : nat) : list T := firstn (hi - lo) (skipn lo l).

(** [l[lo:hi]], [l[lo:]] with Python bounds *)
Definition slice {T} (l : list T) (lo hi : Z) : list T :=
  lslice l (norm_idx (length l) lo) (norm_idx (length l) hi).
Definition slice_from {T} (l : list T) (lo : Z) : list T := skipn (norm_idx (length l) lo) l.

(** Replace the [length v] elements starting at [lo]. *)
Definition splice {T} (l : list T) (lo : nat) (v : list T) : list T :=
  firstn lo l ++ v ++ skipn (lo + length v) l.

(** [l[lo:hi] = v] (non-negative bounds, clipped to the array).  NumPy requires the lengths to
    match, except that a one-element value is broadcast. *)
Definition set_slice {T} (l : list T) (lo hi : nat) (v : list T) : res (list T) :=
  let hi' := Nat.min hi (length l) in
  let n := hi' - lo in
  if length v =? n then Ok (splice l (Nat.min lo (length l)) v)
  else match v with
       | [x] => Ok (splice l (Nat.min lo (length l)) (repeat x n))
       | _ => Err ValueError
       end.

(** [l[lo:hi] = x] with a scalar *)
Definition fill_slice {T} (l : list T) (lo hi : nat) (x : T) : list T :=
  splice l (Nat.min lo (length l)) (repeat x (Nat.min hi (length l) - lo)).

(** [l[i] = x] for a non-negative index *)
Definition setitem {T} (l : list T) (i : nat) (x : T) : res (list T) :=
  if i <? length l then Ok (splice l i [x]) else Err IndexError.

(** [np.arange(a, a+n)] *)
Definition arange (a : Z) (n : nat) : list Z := map (fun k => (a + Z.of_nat k)%Z) (seq 0 n).

(** Element-wise combination; NumPy raises when lengths differ (broadcasting a length-1 operand
    is not modelled here: callers always pass equal lengths, see the theorems). *)
Fixpoint zip_with {S T U} (f : S -> T -> U) (a : list S) (b : list T) : list U :=
  match a, b with
  | x :: a', y :: b' => f x y :: zip_with f a' b'
  | _, _ => []
  end.

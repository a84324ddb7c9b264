(** * Mat: two-dimensional arrays as lists of rows. *)
From Verif Require Import Np.
Set Implicit Arguments.

(** A 2-D array; all rows have the same length in every state the model reaches. *)
Definition mat (T : Type) : Type := list (list T).

Definition is_mat {T} (h w : nat) (m : mat T) : Prop :=
  length m = h /\ forall r, In r m -> length r = w.

(** [m[i, j]] for non-negative indices *)
Definition mget {T} (m : mat T) (i j : nat) : res T := do r <- getitem m i; getitem r j.

(** [m[i, j]] with Python's negative indices *)
Definition mgetz {T} (m : mat T) (i j : Z) : res T := do r <- pyget m i; pyget r j.

(** [m[i, j] = x] *)
Definition mset {T} (m : mat T) (i j : nat) (x : T) : res (mat T) :=
  do r <- getitem m i; do r' <- setitem r j x; setitem m i r'.

Definition ncols {T} (m : mat T) : nat := match m with [] => 0 | r :: _ => length r end.

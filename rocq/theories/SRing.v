(** * SRing: specification of a sliding window over a stream, independent of the model.

    The stream is the list of all points ever pushed, oldest first. *)
From Verif Require Import Np NpFacts MRing.
Set Implicit Arguments.

(** Position in the stream of entry [j] of a window of maximum length [n]. *)
Definition window_pos {T} (n : nat) (s : list T) (j : nat) : nat := length s - n + j.

Definition update {T} (s : list T) (p : nat) (x : T) : list T :=
  firstn p s ++ match skipn p s with [] => [] | _ :: r => x :: r end.

(** Python index [i] into a sequence of length [n] denotes position [j]. *)
Definition py_index (n : nat) (i : Z) (j : nat) : Prop :=
  j < n /\ (i = Z.of_nat j \/ i = Z.of_nat j - Z.of_nat n)%Z.

(** Python slice bound [i] of a sequence of length [n] denotes the boundary [j]. *)
Definition py_bound (n : nat) (i : Z) (j : nat) : Prop :=
  (0 <= i /\ Z.of_nat j = Z.min i (Z.of_nat n) \/
   i < 0 /\ Z.of_nat j = Z.max 0 (i + Z.of_nat n))%Z.

(** What one operation does to the stream. *)
Inductive stream_step {T} (n : nat) (s : list T) : rb_op T -> list T -> Prop :=
| st_push d : stream_step n s (OpPush d) (s ++ d)
| st_set i x j : py_index (Nat.min n (length s)) i j ->
    stream_step n s (OpSetItem i x) (update s (window_pos n s j) x)
| st_set_bad i x : (forall j, ~ py_index (Nat.min n (length s)) i j) ->
    stream_step n s (OpSetItem i x) s
| st_slice lo hi v a b s' :
    py_bound (Nat.min n (length s)) lo a -> py_bound (Nat.min n (length s)) hi b ->
    length v = b - a ->
    length s' = length s ->
    (forall p, nth_error s' p =
       if (window_pos n s a <=? p) && (p <? window_pos n s a + length v)
       then nth_error v (p - window_pos n s a) else nth_error s p) ->
    stream_step n s (OpSetSlice lo hi v) s'
| st_slice_bcast lo hi x a b s' :   (* NumPy broadcasts a single value *)
    py_bound (Nat.min n (length s)) lo a -> py_bound (Nat.min n (length s)) hi b ->
    b - a <> 1 ->
    length s' = length s ->
    (forall p, nth_error s' p =
       if (window_pos n s a <=? p) && (p <? window_pos n s a + (b - a))
       then Some x else nth_error s p) ->
    stream_step n s (OpSetSlice lo hi [x]) s'
| st_slice_bad lo hi v a b :
    py_bound (Nat.min n (length s)) lo a -> py_bound (Nat.min n (length s)) hi b ->
    length v <> b - a -> length v <> 1 ->
    stream_step n s (OpSetSlice lo hi v) s.

Inductive stream_run {T} (n : nat) (s : list T) : list (rb_op T) -> list T -> Prop :=
| sr_nil : stream_run n s [] s
| sr_cons o s1 os s2 : stream_step n s o s1 -> stream_run n s1 os s2 -> stream_run n s (o :: os) s2.

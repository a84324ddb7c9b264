(** * MRing: model of distancematrix/ringbuffer.py *)
From Verif Require Import Np.
From Coq Require Import QArith Qround.
Set Implicit Arguments.
Open Scope nat_scope.

(** ringbuffer.py 43-52, the attributes of a [RingBuffer].  [rb_buf] is the last dimension of
    [_buffer]: for data with several dimensions an element [T] is one column, so that the check of
    lines 65-66 (all other dimensions match) is discharged by typing.  [view] is a NumPy view, i.e.
    a pair of bounds [rb_vlo], [rb_vhi] into the memory block.
    [max_shape] equals [rb_max] in the last dimension. *)
Record rb (T : Type) := mkRb {
  rb_buf : list T;      (* _buffer *)
  rb_start : nat;       (* _view_start *)
  rb_max : nat;         (* _view_max_length *)
  rb_len : nat;         (* _view_length *)
  rb_vlo : nat;         (* view = _buffer[rb_vlo : rb_vhi] *)
  rb_vhi : nat
}.

Section Ring.
  Variable T : Type.

  (** The elements visible through [self.view]. *)
  Definition rb_view (b : rb T) : list T := lslice (rb_buf b) (rb_vlo b) (rb_vhi b).

  (** ringbuffer.py 87-112: the part of [push] reached with a full view and at least one point.
      An assignment between slices of different length raises [ValueError] (NumPy broadcasting);
      the state after such an exception is not modelled. Lines 99-100 read and write the same memory;
      NumPy buffers overlapping assignments, so the right-hand side is read first. *)
  Definition rb_push_full (b : rb T) (data : list T) : res (rb T * nat) :=
    let data_len := length data in
    let n := rb_max b in
    let cap := length (rb_buf b) in
    if rb_start b + n + data_len <=? cap then              (* line 90 *)
      let s := rb_start b + data_len in
      let view := lslice (rb_buf b) s (s + n) in
      do view' <- set_slice view (norm_idx (length view) (- Z.of_nat data_len)) (length view) data;
      Ok (mkRb (splice (rb_buf b) s view') s n (rb_len b) s (Nat.min (s + n) cap), data_len)
    else if data_len <? n then                             (* line 97 *)
      let mem_len := n - data_len in
      do buf1 <- set_slice (rb_buf b) 0 mem_len
                   (lslice (rb_buf b) (rb_start b + data_len) (rb_start b + n));
      do buf2 <- set_slice buf1 mem_len n data;
      Ok (mkRb buf2 0 n (rb_len b) 0 (Nat.min n cap), data_len)
    else                                                   (* line 107 *)
      do buf1 <- set_slice (rb_buf b) 0 n (slice_from data (- Z.of_nat n));
      Ok (mkRb buf1 0 n (rb_len b) 0 (Nat.min n cap), data_len).

  (** ringbuffer.py 56-112: [push]; returns the new buffer and the returned integer. *)
  Definition rb_push (b : rb T) (data : list T) : res (rb T * nat) :=
    let data_len := length data in
    if data_len =? 0 then Ok (b, 0)                        (* line 70 *)
    else if rb_len b <? rb_max b then                      (* line 74 *)
      let delta := Nat.min data_len (rb_max b - rb_len b) in
      do buf1 <- set_slice (rb_buf b) (rb_len b) (rb_len b + delta) (firstn delta data);
      let len1 := rb_len b + delta in
      let b1 := mkRb buf1 (rb_start b) (rb_max b) len1 0 (Nat.min len1 (length buf1)) in
      if data_len =? delta then Ok (b1, 0)                 (* line 80 *)
      else rb_push_full b1 (skipn delta data)
    else rb_push_full b data.

  (** ringbuffer.py 48-52: the freshly allocated buffer. [np.empty] leaves arbitrary values in memory:
      [mem] is that arbitrary content.  A negative size makes [np.empty] raise. *)
  Definition rb_alloc (mem : nat -> T) (n : nat) (sf : Q) : res (rb T) :=
    let cap := Qceiling (sf * inject_Z (Z.of_nat n)) in
    if (cap <? 0)%Z then Err ValueError
    else Ok (mkRb (map mem (seq 0 (Z.to_nat cap))) 0 n 0 0 0).

  (** ringbuffer.py 17-54: [__init__]; [shape] is the last dimension of the given shape,
      [dtype_given] tells whether [dtype] is not None. *)
  Definition rb_new (mem : nat -> T) (data : option (list T)) (shape : option nat)
             (dtype_given : bool) (sf : Q) : res (rb T) :=
    match data, shape with
    | None, None => Err RuntimeError                       (* line 29 *)
    | None, Some n =>
        if dtype_given then rb_alloc mem n sf else Err RuntimeError  (* line 32 *)
    | Some d, _ =>
        let n := match shape with Some n => n | None => length d end in
        do b <- rb_alloc mem n sf;
        do r <- rb_push b d; Ok (fst r)                    (* line 54 *)
    end.

  (** Assignment through the view that keeps its shape ([self.view[...] = ...]). *)
  Definition rb_set_view (b : rb T) (w : list T) : rb T :=
    mkRb (splice (rb_buf b) (rb_vlo b) w) (rb_start b) (rb_max b) (rb_len b) (rb_vlo b) (rb_vhi b).

  (** ringbuffer.py 114-115: [buffer[i] = x] with a Python integer index. *)
  Definition rb_setitem (b : rb T) (i : Z) (x : T) : res (rb T) :=
    let v := rb_view b in
    let n := Z.of_nat (length v) in
    if (i <? - n)%Z || (n <=? i)%Z then Err IndexError
    else Ok (rb_set_view b (splice v (Z.to_nat (if (i <? 0)%Z then i + n else i)) [x])).

  (** ringbuffer.py 114-115: [buffer[lo:hi] = v] with Python bounds. *)
  Definition rb_setslice (b : rb T) (lo hi : Z) (v : list T) : res (rb T) :=
    let w := rb_view b in
    do w' <- set_slice w (norm_idx (length w) lo) (norm_idx (length w) hi) v;
    Ok (rb_set_view b w').
End Ring.

(** A client of the buffer: the operations of the class. *)
Inductive rb_op (T : Type) : Type :=
| OpPush (d : list T)
| OpSetItem (i : Z) (x : T)
| OpSetSlice (lo hi : Z) (v : list T).
Arguments OpPush {T} d.
Arguments OpSetItem {T} i x.
Arguments OpSetSlice {T} lo hi v.

(** Run one operation; a rejected item write (exception caught by the client) leaves the buffer as it
    was, a rejected push is an error of the whole run. *)
Definition rb_step {T} (b : rb T) (o : rb_op T) : res (rb T) :=
  match o with
  | OpPush d => do r <- rb_push b d; Ok (fst r)
  | OpSetItem i x => match rb_setitem b i x with Ok b' => Ok b' | Err _ => Ok b end
  | OpSetSlice lo hi v => match rb_setslice b lo hi v with Ok b' => Ok b' | Err _ => Ok b end
  end.

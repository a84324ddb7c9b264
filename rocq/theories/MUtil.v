(** * MUtil: model of distancematrix/util.py *)
From Verif Require Import Np Mat.
Set Implicit Arguments.

(** Python's [range(a, b)] and [range(a, b, -1)] *)
Definition pyrange (a b : Z) : list Z := arange a (Z.to_nat (b - a)).
Definition pyrange_down (a b : Z) : list Z := map (fun k => (a - Z.of_nat k)%Z) (seq 0 (Z.to_nat (a - b))).

(** util.py 5-17 *)
Definition diag_length (h w diagonal : Z) : Z :=
  if (0 <=? diagonal)%Z then Z.max (Z.min h (w - diagonal)) 0
  else Z.max (Z.min w (h + diagonal)) 0.

(** util.py 20-34 *)
Definition diag_indices (h w diagonal : Z) : list Z * list Z :=
  let dl := diag_length h w diagonal in
  if (0 <=? diagonal)%Z then (pyrange 0 dl, pyrange diagonal (diagonal + dl))
  else (pyrange (- diagonal) (- diagonal + dl), pyrange 0 dl).

(** util.py 37-48: [diag_indices] with the shape of the array (the 2-D check is typing). *)
Definition diag_indices_of {T} (array : mat T) (diagonal : Z) : list Z * list Z :=
  diag_indices (Z.of_nat (length array)) (Z.of_nat (ncols array)) diagonal.

(** util.py 51-73, with [h, w = array.shape] *)
Definition cut_indices (h w cut : Z) : list Z * list Z :=
  if (cut <? 0)%Z || (w + h - 1 <=? cut)%Z then (pyrange 0 0, pyrange 0 0)
  else
    let cut_length := (cut + 1 - Z.max 0 (cut - h + 1) - Z.max 0 (cut - w + 1))%Z in
    if (cut <? h)%Z then (pyrange_down cut (cut - cut_length), pyrange 0 cut_length)
    else (pyrange_down (h - 1) (h - cut_length - 1), pyrange (cut - h + 1) (cut - h + 1 + cut_length)).

Section Path.
  Context {A : Type} {NA : NumOps A}.
  Notation num := (num A).

  (** [np.cumsum] *)
  Fixpoint cumsum_from (acc : num) (l : list num) : list num :=
    match l with [] => [] | x :: l' => let a := fadd acc x in a :: cumsum_from a l' end.
  Definition cumsum (l : list num) : list num :=
    match l with [] => [] | x :: l' => x :: cumsum_from x l' end.

  (** Python's [min(x, y)]: the first argument unless the second is smaller. *)
  Definition pymin (x y : num) : num := if fltb y x then y else x.

  (** [dist[:, 0] = v] *)
  Definition set_col0 (dist : mat num) (v : list num) : res (mat num) :=
    foldM (fun d ix => mset d (fst ix) 0 (snd ix)) (combine (seq 0 (length v)) v) dist.

  (** util.py 97 *)
  Definition sp_cell (cost : mat num) (dist : mat num) (c r : nat) : res (mat num) :=
    do up <- mget dist (c - 1) r;
    do lft <- mget dist c (r - 1);
    do diag <- mget dist (c - 1) (r - 1);
    do x <- mget cost c r;
    mset dist c r (fadd (pymin (pymin up lft) diag) x).

  (** util.py 76-99.  [garbage i j] is what [np.empty_like] leaves in memory.
      [cost_array[0, :]] raises on an array without rows, [cost_array[:, 0]] without columns. *)
  Definition shortest_path_distances (garbage : nat -> nat -> num) (cost : mat num) : res (mat num) :=
    let h := length cost in let w := ncols cost in
    let dist := map (fun i => map (garbage i) (seq 0 w)) (seq 0 h) in
    do row0 <- getitem cost 0;
    do dist <- setitem dist 0 (cumsum row0);
    do col0 <- mapM (fun r => getitem r 0) cost;
    do dist <- set_col0 dist (cumsum col0);
    foldM (fun d c => foldM (fun d r => sp_cell cost d c r) (seq 1 (w - 1)) d) (seq 1 (h - 1)) dist.

  (** util.py 118-131: one iteration of the backtracking loop; [step] is the variable [delta_step],
      [None] while unbound. *)
  Definition sp_choose (dist : mat num) (row col : Z) (step : option (Z * Z)) : res (Z * Z) :=
    do s1 <- (if negb (row =? 0)%Z && negb (col =? 0)%Z then
               do b <- mgetz dist (row - 1) (col - 1); Ok (Some (-1, -1)%Z, b)
             else Ok (step, PInf));
    let '(step, best) := s1 in
    do s2 <- (if negb (row =? 0)%Z then
               do x <- mgetz dist (row - 1) col;
               if fltb x best then Ok (Some (-1, 0)%Z, x) else Ok (step, best)
             else Ok (step, best));
    let '(step, best) := s2 in
    do step <- (if negb (col =? 0)%Z then
               do x <- mgetz dist row (col - 1);
               if fltb x best then Ok (Some (0, -1)%Z) else Ok step
             else Ok step);
    match step with Some s => Ok s | None => Err UnboundLocalError end.

  (** util.py 112-133; [fuel] bounds the number of loop iterations. [path] is kept in the order of the
      returned list, i.e. appending and the final reversal are replaced by consing. *)
  Fixpoint sp_back (fuel : nat) (dist : mat num) (row col : Z) (step : option (Z * Z))
           (path : list (Z * Z)) : res (list (Z * Z)) :=
    if (row =? 0)%Z && (col =? 0)%Z then Ok path
    else match fuel with
         | O => Err OutOfFuel
         | S fuel' =>
             do s <- sp_choose dist row col step;
             let row := (row + fst s)%Z in let col := (col + snd s)%Z in
             sp_back fuel' dist row col (Some s) ((row, col) :: path)
         end.

  Definition shortest_path (fuel : nat) (garbage : nat -> nat -> num) (cost : mat num) : res (list (Z * Z)) :=
    let row := (Z.of_nat (length cost) - 1)%Z in
    let col := (Z.of_nat (ncols cost) - 1)%Z in
    do dist <- shortest_path_distances garbage cost;
    sp_back fuel dist row col None [(row, col)].
End Path.

(** ** sliding_window_view *)

(** An N-d array: address of element 0, shape and strides (in elements; NumPy counts bytes, a constant
    factor).  The element at index [i] is at address [base + sum i_k * stride_k]. *)
Record ndarray := mkNd { nd_base : Z; nd_shape : list Z; nd_strides : list Z }.

Fixpoint dot (a b : list Z) : Z :=
  match a, b with x :: a', y :: b' => (x * y + dot a' b')%Z | _, _ => 0%Z end.

Definition nd_addr (x : ndarray) (idx : list Z) : Z := (nd_base x + dot idx (nd_strides x))%Z.

(** util.py 161-243 for [shape] and [step] given as sequences of integers ([step = None]: all ones).
    The conversions that raise [TypeError] for non-integers are outside the model; the copy made for
    [writeable=True] has the same elements. *)
Definition sliding_window_view (x : ndarray) (shape : list Z) (step : option (list Z)) : res ndarray :=
  let n := length (nd_shape x) in
  if negb (n =? length shape) then Err ValueError                       (* 209 *)
  else if existsb (fun s => (s <=? 0)%Z) shape then Err ValueError      (* 211 *)
  else
    do step <- match step with
               | None => Ok (repeat 1%Z n)                              (* 215 *)
               | Some st =>
                   if negb (n =? length st) then Err ValueError         (* 224 *)
                   else if existsb (fun s => (s <=? 0)%Z) st then Err ValueError  (* 226 *)
                   else Ok st
               end;
    let o := zip_with Z.add (zip_with Z.div (zip_with Z.sub (nd_shape x) shape) step)
                      (repeat 1%Z n) in                                 (* 229 *)
    if existsb (fun k => (k <=? 0)%Z) o then Err ValueError             (* 230 *)
    else Ok (mkNd (nd_base x) (o ++ shape)
                  (zip_with Z.mul (nd_strides x) step ++ nd_strides x)).

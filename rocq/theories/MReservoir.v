(** * MReservoir: model of MatrixProfileLRReservoir
    (distancematrix/consumer/matrix_profile_lr.py 249-382). *)
From Verif Require Import Np Mat SLog MProfile MRand.
Set Implicit Arguments.
Open Scope nat_scope.

(** [np.where(mask, a, b)] *)
Definition where_ {T} (m : list bool) (a b : list T) : list T :=
  zip_with (fun (u : bool) ab => if u then fst ab else snd ab) m (zip_with pair a b).

Section Reservoir.
  Context {A : Type} {NA : NumOps A}.
  Notation num := (Np.num A).

  (** 261-277: attributes *)
  Record mrs := mkMrs {
    r_range : list Z;
    r_left : list num; r_ileft : list Z; r_nleft : list nat;
    r_right : list num; r_iright : list Z; r_nright : list nat
  }.

  (** 279-288 *)
  Definition mrs_init (query_subseq series_subseq : nat) : mrs :=
    let f := repeat PInf series_subseq in
    let i := repeat (-1)%Z series_subseq in
    let z := repeat 0 series_subseq in
    mkMrs (arange 0 (Nat.max series_subseq query_subseq)) f i z f i z.

  (** 336-340: one draw per [equal] position, in order; [nm] is the already incremented count. *)
  Fixpoint draws (equal : list bool) (nm : list nat) (didx mpi : list Z) : rnd (list Z) :=
    match equal, nm, didx, mpi with
    | e :: equal', n :: nm', d :: didx', i :: mpi' =>
        if e then Flip 1 n (fun o => draw l <- draws equal' nm' didx' mpi'; Ret ((if o then d else i) :: l))
        else draw l <- draws equal' nm' didx' mpi'; Ret (i :: l)
    | _, _, _, _ => Ret []
    end.

  (** 325-340 [_update_matrix_profile] on slices of equal length; returns the new content of the three
      slices it assigns to. *)
  Definition update_res (dist : list num) (didx : list Z) (mp : list num) (mpi : list Z) (nm : list nat)
    : rnd (list num * list Z * list nat) :=
    if (length dist =? length mp) && (length dist =? length mpi) && (length dist =? length nm)
       && (length dist =? length didx) then
      let better := zip_with fltb dist mp in
      let equal := zip_with (fun d m => feqb d m && isfinite d) dist mp in
      let mp1 := where_ better dist mp in
      let mpi1 := where_ better didx mpi in
      let nm1 := where_ better (repeat 1 (length nm)) nm in
      let nm2 := where_ equal (map S nm1) nm1 in
      draw mpi2 <- draws equal nm2 didx mpi1;
      Ret (mp1, mpi2, nm2)
    else Fail ValueError.

  (** The call on the slices [lo:hi] of the arrays *)
  Definition update_res_at (dist : list num) (didx : list Z) (mp : list num) (mpi : list Z) (nm : list nat) (lo hi : nat)
    : rnd (list num * list Z * list nat) :=
    draw r <- update_res dist didx (lslice mp lo hi) (lslice mpi lo hi) (lslice nm lo hi);
    let '(a, b, c) := r in
    Ret (splice mp lo a, splice mpi lo b, splice nm lo c).

  (** 290-307 *)
  Definition mrs_diag (s : mrs) (diag : Z) (values : list (list num)) : rnd mrs :=
    draw values <- lift (row0 values);
    let n := length values in
    if (0 <=? diag)%Z then
      let d := Z.to_nat diag in
      draw r <- update_res_at values (lslice (r_range s) 0 n) (r_left s) (r_ileft s) (r_nleft s) d (d + n);
      let '(a, b, c) := r in
      Ret (mkMrs (r_range s) a b c (r_right s) (r_iright s) (r_nright s))
    else
      let d := Z.to_nat (- diag) in
      draw r <- update_res_at values (lslice (r_range s) d (d + n)) (r_right s) (r_iright s) (r_nright s) 0 n;
      let '(a, b, c) := r in
      Ret (mkMrs (r_range s) (r_left s) (r_ileft s) (r_nleft s) a b c).

  (** [np.nonzero(values == x)[0]] *)
  Fixpoint eq_idxs_from (k : nat) (l : list num) (x : num) : list nat :=
    match l with [] => [] | y :: l' => if feqb y x then k :: eq_idxs_from (S k) l' x else eq_idxs_from (S k) l' x end.
  Definition eq_idxs (l : list num) (x : num) : list nat := eq_idxs_from 0 l x.

  (** 342-346 [_random_pick] *)
  Definition random_pick (a : list nat) : rnd nat :=
    if length a =? 1 then lift (getitem a 0)
    else Pick (length a) (fun i => lift (getitem a i)).

  (** 309-323 *)
  Definition mrs_col (s : mrs) (c : nat) (values : list (list num)) : rnd mrs :=
    draw values <- lift (row0 values);
    draw v1 <- lift (amin (firstn (c + 1) values));
    draw l1 <- lift (setitem (r_left s) c v1);
    let idxs := eq_idxs (firstn (c + 1) values) v1 in
    draw n1 <- lift (setitem (r_nleft s) c (length idxs));
    draw p1 <- random_pick idxs;
    draw i1 <- lift (setitem (r_ileft s) c (Z.of_nat p1));
    if c + 2 <=? length values then
      draw v2 <- lift (amin (skipn (c + 1) values));
      draw l2 <- lift (setitem (r_right s) c v2);
      let idxs2 := eq_idxs (skipn (c + 1) values) v2 in
      draw n2 <- lift (setitem (r_nright s) c (length idxs2));
      draw p2 <- random_pick idxs2;
      draw i2 <- lift (setitem (r_iright s) c (Z.of_nat p2 + Z.of_nat c + 1)%Z);
      Ret (mkMrs (r_range s) l1 i1 n1 l2 i2 n2)
    else Ret (mkMrs (r_range s) l1 i1 n1 (r_right s) (r_iright s) (r_nright s)).

  Definition mrs_step (s : mrs) (e : event num) : rnd mrs :=
    match e with
    | EDiag d v => mrs_diag s d v
    | ECol c v => mrs_col s c v
    | EShiftS _ | EShiftQ _ => Fail AttributeError
    end.
  Definition mrs_run (s : mrs) (es : list (event num)) : rnd mrs := rfold mrs_step es s.

  (** 348-359 *)
  Definition mrs_mp (s : mrs) : list num := merge_mp (r_left s) (r_right s).

  (** 373-380: one draw per position where both sides are equal and the left side has a match. *)
  Fixpoint merge_draws (equal : list bool) (nl nr : list nat) (il ir cur : list Z) : rnd (list Z) :=
    match equal, nl, nr, il, ir, cur with
    | e :: equal', a :: nl', b :: nr', i :: il', j :: ir', x :: cur' =>
        if e then Flip a (a + b) (fun o => draw l <- merge_draws equal' nl' nr' il' ir' cur'; Ret ((if o then i else j) :: l))
        else draw l <- merge_draws equal' nl' nr' il' ir' cur'; Ret (x :: l)
    | _, _, _, _, _, _ => Ret []
    end.

  (** 361-382 [profile_index] *)
  Definition mrs_idx (s : mrs) : rnd (list Z) :=
    let left_best := zip_with fltb (r_left s) (r_right s) in
    let cur := where_ left_best (r_ileft s) (r_iright s) in
    let value_equal := zip_with (fun (e : bool) n => e && negb (n =? 0)) (zip_with feqb (r_left s) (r_right s)) (r_nleft s) in
    merge_draws value_equal (r_nleft s) (r_nright s) (r_ileft s) (r_iright s) cur.
End Reservoir.

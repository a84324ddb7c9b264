(** * MProfile: model of MatrixProfileLR and ShiftingMatrixProfileLR
    (distancematrix/consumer/matrix_profile_lr.py 8-246). *)
From Verif Require Import Np Mat MRing SLog.
From Coq Require Import QArith.
Set Implicit Arguments.
Open Scope nat_scope.

(** [values[0]] of a (channels x points) array *)
Definition row0 {T} (values : list (list T)) : res (list T) :=
  match values with [] => Err IndexError | v :: _ => Ok v end.

Section Profile.
  Context {A : Type} {NA : NumOps A}.
  Notation num := (Np.num A).

  (** 65-69 [_update_matrix_profile] on the four slices; returns the new content of the two slices it
      assigns to.  Slices of different length make NumPy raise (broadcasting of one-element slices is
      not modelled). *)
  Definition update_mp (dist : list num) (dist_idx : list Z) (mp : list num) (mpi : list Z)
    : res (list num * list Z) :=
    if (length dist =? length mp) && (length mp =? length mpi) && (length dist =? length dist_idx) then
      let upd := zip_with fltb dist mp in
      Ok (zip_with (fun (u : bool) dm => if u then fst dm else snd dm) upd (zip_with pair dist mp),
          zip_with (fun (u : bool) dm => if u then fst dm else snd dm) upd (zip_with pair dist_idx mpi))
    else Err ValueError.

  (** The call of [_update_matrix_profile] on [mp[lo:hi]], [mpi[lo:hi]]: the slices are views, the
      assignments land in the arrays. *)
  Definition update_at (dist : list num) (dist_idx : list Z) (mp : list num) (mpi : list Z) (lo hi : nat)
    : res (list num * list Z) :=
    do r <- update_mp dist dist_idx (lslice mp lo hi) (lslice mpi lo hi);
    Ok (splice mp lo (fst r), splice mpi lo (snd r)).

  (** 16-27: attributes *)
  Record mplr := mkMplr {
    mp_range : list Z;
    mp_left : list num;
    mp_ileft : list Z;
    mp_right : list num;
    mp_iright : list Z
  }.

  (** 29-36 *)
  Definition mplr_init (query_subseq series_subseq : nat) : mplr :=
    mkMplr (arange 0 (Nat.max series_subseq query_subseq))
           (repeat PInf series_subseq) (repeat (-1)%Z series_subseq)
           (repeat PInf series_subseq) (repeat (-1)%Z series_subseq).

  (** 38-53 *)
  Definition mplr_diag (s : mplr) (diag : Z) (values : list (list num)) : res mplr :=
    do values <- row0 values;
    let num_values := length values in
    if (0 <=? diag)%Z then
      let d := Z.to_nat diag in
      do r <- update_at values (lslice (mp_range s) 0 num_values) (mp_left s) (mp_ileft s) d (d + num_values);
      Ok (mkMplr (mp_range s) (fst r) (snd r) (mp_right s) (mp_iright s))
    else
      let d := Z.to_nat (- diag) in
      do r <- update_at values (lslice (mp_range s) d (d + num_values)) (mp_right s) (mp_iright s) 0 num_values;
      Ok (mkMplr (mp_range s) (mp_left s) (mp_ileft s) (fst r) (snd r)).

  (** 55-63 *)
  Definition mplr_col (s : mplr) (c : nat) (values : list (list num)) : res mplr :=
    do values <- row0 values;
    do v1 <- amin (firstn (c + 1) values);
    do left1 <- setitem (mp_left s) c v1;
    do i1 <- argmin (firstn (c + 1) values);
    do ileft1 <- setitem (mp_ileft s) c (Z.of_nat i1);
    if c + 2 <=? length values then
      do v2 <- amin (skipn (c + 1) values);
      do right1 <- setitem (mp_right s) c v2;
      do i2 <- argmin (skipn (c + 1) values);
      do iright1 <- setitem (mp_iright s) c (Z.of_nat i2 + Z.of_nat c + 1)%Z;
      Ok (mkMplr (mp_range s) left1 ileft1 right1 iright1)
    else Ok (mkMplr (mp_range s) left1 ileft1 (mp_right s) (mp_iright s)).

  (** AbstractConsumer has no shifts *)
  Definition mplr_step (s : mplr) (e : event num) : res mplr :=
    match e with
    | EDiag d v => mplr_diag s d v
    | ECol c v => mplr_col s c v
    | EShiftS _ | EShiftQ _ => Err AttributeError
    end.
  Definition mplr_run (s : mplr) (es : list (event num)) : res mplr := foldM mplr_step es s.

  (** 87-98: [np.where(left < right, left, right)] *)
  Definition merge_mp (l r : list num) : list num :=
    zip_with (fun a b => if fltb a b then a else b) l r.
  (** 100-111 *)
  Definition merge_idx (l r : list num) (il ir : list Z) : list Z :=
    zip_with (fun (b : bool) ii => if b then fst ii else snd ii) (zip_with fltb l r) (zip_with pair il ir).
  Definition mplr_mp (s : mplr) : list num := merge_mp (mp_left s) (mp_right s).
  Definition mplr_idx (s : mplr) : list Z := merge_idx (mp_left s) (mp_right s) (mp_ileft s) (mp_iright s).

  (** ** ShiftingMatrixProfileLR, 114-246 *)
  Record smp := mkSmp {
    s_range : rb Z;
    s_left : rb num;
    s_ileft : rb Z;
    s_right : rb num;
    s_iright : rb Z;
    s_ss : Z;       (* series_shift *)
    s_qs : Z        (* query_shift *)
  }.

  (** 131-154: [__init__] and [initialise]; [memn], [memz] are the uninitialised memory of the ring
      buffers. *)
  Definition smp_init (memn : nat -> num) (memz : nat -> Z) (sf : Q) (query_subseq series_subseq : nat) : res smp :=
    if negb (Qle_bool 1 sf) then Err ValueError
    else
      let s := mplr_init query_subseq series_subseq in
      do range <- rb_new memz (Some (mp_range s)) None true sf;
      do l <- rb_new memn (Some (mp_left s)) None true sf;
      do il <- rb_new memz (Some (mp_ileft s)) None true sf;
      do r <- rb_new memn (Some (mp_right s)) None true sf;
      do ir <- rb_new memz (Some (mp_iright s)) None true sf;
      Ok (mkSmp range l il r ir 0%Z 0%Z).

  (** [update_at] through two ring buffers' views *)
  Definition update_rb (dist : list num) (dist_idx : list Z) (mp : rb num) (mpi : rb Z) (lo hi : nat)
    : res (rb num * rb Z) :=
    do r <- update_at dist dist_idx (rb_view mp) (rb_view mpi) lo hi;
    Ok (rb_set_view mp (fst r), rb_set_view mpi (snd r)).

  (** 156-188 *)
  Definition smp_diag (s : smp) (diag : Z) (values : list (list num)) : res smp :=
    do values <- row0 values;
    let num_values := length values in
    let shift_diff := (s_ss s - s_qs s)%Z in
    let range := rb_view (s_range s) in
    if (0 <=? diag + shift_diff)%Z then
      do r <- (if (0 <=? diag)%Z then
                 let d := Z.to_nat diag in
                 update_rb values (lslice range 0 num_values) (s_left s) (s_ileft s) d (d + num_values)
               else
                 let d := Z.to_nat (- diag) in
                 update_rb values (lslice range d (d + num_values)) (s_left s) (s_ileft s) 0 num_values);
      Ok (mkSmp (s_range s) (fst r) (snd r) (s_right s) (s_iright s) (s_ss s) (s_qs s))
    else
      do r <- (if (0 <=? diag)%Z then
                 let d := Z.to_nat diag in
                 update_rb values (lslice range 0 num_values) (s_right s) (s_iright s) d (d + num_values)
               else
                 let d := Z.to_nat (- diag) in
                 update_rb values (lslice range d (d + num_values)) (s_right s) (s_iright s) 0 num_values);
      Ok (mkSmp (s_range s) (s_left s) (s_ileft s) (fst r) (snd r) (s_ss s) (s_qs s)).

  (** 190-209 *)
  Definition smp_col (s : smp) (c : nat) (values : list (list num)) : res smp :=
    do values <- row0 values;
    let shift_diff := (s_ss s - s_qs s)%Z in
    let border := Z.to_nat (Z.max 0 (Z.of_nat c + 1 + shift_diff)) in
    do s1 <- (if 0 <? border then
                do min_value <- amin (firstn border values);
                do cur <- getitem (rb_view (s_left s)) c;
                if fltb min_value cur then
                  do l <- rb_setitem (s_left s) (Z.of_nat c) min_value;
                  do i <- argmin (firstn border values);
                  do il <- rb_setitem (s_ileft s) (Z.of_nat c) (Z.of_nat i + s_qs s)%Z;
                  Ok (mkSmp (s_range s) l il (s_right s) (s_iright s) (s_ss s) (s_qs s))
                else Ok s
              else Ok s);
    if border <? length values then
      do min_value <- amin (skipn border values);
      do cur <- getitem (rb_view (s_right s1)) c;
      if fltb min_value cur then
        do r <- rb_setitem (s_right s1) (Z.of_nat c) min_value;
        do i <- argmin (skipn border values);
        do ir <- rb_setitem (s_iright s1) (Z.of_nat c) (Z.of_nat i + Z.of_nat border + s_qs s1)%Z;
        Ok (mkSmp (s_range s1) (s_left s1) (s_ileft s1) r ir (s_ss s1) (s_qs s1))
      else Ok s1
    else Ok s1.

  (** 211-216 *)
  Definition smp_shift_query (s : smp) (amount : nat) : res smp :=
    if amount =? 0 then Ok s
    else
      do lst <- pyget (rb_view (s_range s)) (-1);
      do r <- rb_push (s_range s) (arange (lst + 1) amount);
      Ok (mkSmp (fst r) (s_left s) (s_ileft s) (s_right s) (s_iright s) (s_ss s) (s_qs s + Z.of_nat amount)%Z).

  (** 218-230 *)
  Definition smp_shift_series (s : smp) (amount : nat) : res smp :=
    if amount =? 0 then Ok s
    else
      do l <- rb_push (s_left s) (repeat PInf amount);
      do r <- rb_push (s_right s) (repeat PInf amount);
      do il <- rb_push (s_ileft s) (repeat (-1)%Z amount);
      do ir <- rb_push (s_iright s) (repeat (-1)%Z amount);
      Ok (mkSmp (s_range s) (fst l) (fst il) (fst r) (fst ir) (s_ss s + Z.of_nat amount)%Z (s_qs s)).

  Definition smp_step (s : smp) (e : event num) : res smp :=
    match e with
    | EDiag d v => smp_diag s d v
    | ECol c v => smp_col s c v
    | EShiftS n => smp_shift_series s n
    | EShiftQ n => smp_shift_query s n
    end.
  Definition smp_run (s : smp) (es : list (event num)) : res smp := foldM smp_step es s.

  (** 87-111 on the views (232-246) *)
  Definition smp_mp (s : smp) : list num := merge_mp (rb_view (s_left s)) (rb_view (s_right s)).
  Definition smp_idx (s : smp) : list Z :=
    merge_idx (rb_view (s_left s)) (rb_view (s_right s)) (rb_view (s_ileft s)) (rb_view (s_iright s)).
End Profile.

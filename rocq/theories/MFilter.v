(** * MFilter: model of distancematrix/generator/filter_generator.py *)
From Coq Require Import QArith.
From Verif Require Import Np MRing MArith.
Set Implicit Arguments.
Open Scope nat_scope.

(** 251-277: [_invalid_data_to_invalid_subseq].  [m] is at least 1. *)
Definition invalid_subseq (bad : list bool) (m : nat) : res (list bool) :=
  if length bad + 1 <? m then Err ValueError   (* np.zeros of a negative length *)
  else
    do impacted <- foldM (fun k i => do b <- getitem bad i; Ok (pred (if b : bool then m else k))) (seq 0 (m - 1)) 0;
    do r <- foldM (fun s i =>
              do b <- getitem bad i;
              let k := if b : bool then m else fst s in
              if 0 <? k then do result <- setitem (snd s) (i + 1 - m) true; Ok (k - 1, result) else Ok (k, snd s))
            (seq (m - 1) (length bad - (m - 1))) (impacted, repeat false (length bad + 1 - m));
    Ok (snd r).

Section Filter.
  Context {A : Type} {NA : NumOps A}.
  Notation num := (Np.num A).

  (** 10-14 *)
  Definition is_not_finite (data : list num) (m : nat) : list bool := map (fun x => negb (isfinite x)) data.

  (** Assignment through a boolean mask, [values[invalid_points] = 0] *)
  Definition zero_out (values : list num) (bad : list bool) : list num := zip_with (fun x (b : bool) => if b then fzero else x) values bad.
  (** [distances[mask] = np.Inf]; the distances are an array of their own *)
  Definition set_inf (distances : list num) (mask : list bool) : res (list num) :=
    if length mask =? length distances then Ok (zip_with (fun x (b : bool) => if b then PInf else x) distances mask) else Err IndexError.

  (** The wrapped bound generator *)
  Variable G : Type.
  Variable g_col : G -> nat -> res (G * list num).
  Variable g_diag : G -> Z -> res (G * list num).
  Variable g_s g_q : G -> list num -> res G.
  (** [invalid_data_function], any function from data and subsequence length to booleans *)
  Variable invalid : list num -> nat -> list bool.

  (** 207-220 *)
  Definition apply_validation (data : list num) (m : nat) : res (list bool) :=
    let bad := invalid data m in
    if length bad =? length data then Ok bad else Err RuntimeError.

  (** 223-249.  The result of the function is never None here, since its shape was used. *)
  Definition correct_and_mask (data : list num) (m : nat) : res (list num * list bool) :=
    do bad <- apply_validation data m;
    do mask <- invalid_subseq bad m;
    Ok (zero_out data bad, mask).

  (** 96-110: [calc_diagonal], shared by both classes *)
  Definition filter_diagonal (series_mask query_mask : list bool) (g : G) (diag : Z) : res (G * list num) :=
    do r <- g_diag g diag;
    let n := Z.of_nat (length (snd r)) in
    do d <- (if (0 <=? diag)%Z
             then do d <- set_inf (snd r) (slice series_mask diag (diag + n)); set_inf d (slice query_mask 0 n)
             else do d <- set_inf (snd r) (slice series_mask 0 n); set_inf d (slice query_mask (- diag) (- diag + n)));
    Ok (fst r, d).

  (** 66-94: [BoundFilterGenerator] *)
  Record fbatch := mkFb { fb_g : G; fb_nq : nat; fb_s : list bool; fb_q : list bool }.

  (** 18-37, 51-63.  [prepare] is the method of the wrapped generator. *)
  Definition fb_prepare (prepare : nat -> list num -> option (list num) -> res G) (sf : Q) (m : nat) (series : list num) (query : option (list num)) : res fbatch :=
    if negb (Qle_bool 1 sf) then Err ValueError
    else
      do s <- correct_and_mask series m;
      match query with
      | Some q =>
          do q' <- correct_and_mask q m;
          do g <- prepare m (fst s) (Some (fst q'));
          Ok (mkFb g (length q + 1 - m) (snd s) (snd q'))
      | None =>
          do g <- prepare m (fst s) None;
          Ok (mkFb g (length series + 1 - m) (snd s) (snd s))
      end.

  Definition fb_calc_diagonal (f : fbatch) (diag : Z) : res (fbatch * list num) :=
    do r <- filter_diagonal (fb_s f) (fb_q f) (fb_g f) diag;
    Ok (mkFb (fst r) (fb_nq f) (fb_s f) (fb_q f), snd r).

  (** 112-121 *)
  Definition fb_calc_column (f : fbatch) (column : nat) : res (fbatch * list num) :=
    do b <- getitem (fb_s f) column;
    if b : bool then Ok (f, repeat PInf (fb_nq f))
    else
      do r <- g_col (fb_g f) column;
      do d <- set_inf (snd r) (fb_q f);
      Ok (mkFb (fst r) (fb_nq f) (fb_s f) (fb_q f), d).

  (** 124-164: [BoundStreamingFilterGenerator].  [fs_is], [fs_iq]: invalid points, [fs_ms], [fs_mq]: invalid subsequences; in a
      self-join the buffers of the query are those of the series (the same objects). *)
  Record fstream := mkFs { fs_g : G; fs_m : nat; fs_self : bool; fs_is : rb bool; fs_iq : rb bool; fs_ms : rb bool; fs_mq : rb bool }.
  Definition fs_qmask (f : fstream) : rb bool := if fs_self f then fs_ms f else fs_mq f.

  (** 39-49, 132-164.  [m] is at most the windows. *)
  Variable memb : nat -> bool.
  Definition fs_prepare (prepare : nat -> nat -> option nat -> res G) (sf : Q) (m W : nat) (Wq : option nat) : res fstream :=
    if negb (Qle_bool 1 sf) then Err ValueError
    else
      do g <- prepare m W Wq;
      do ms <- rb_new memb None (Some (W + 1 - m)) true sf;
      do is <- rb_new memb None (Some (W + 1 - m + m - 1)) true sf;
      match Wq with
      | None => Ok (mkFs g m true is is ms ms)
      | Some qw =>
          do mq <- rb_new memb None (Some (qw + 1 - m)) true sf;
          do iq <- rb_new memb None (Some (qw + 1 - m + m - 1)) true sf;
          Ok (mkFs g m false is iq ms mq)
      end.

  (** 167-176 / 184-193: points and masks after [values] arrived, and the values for the wrapped generator *)
  Definition fs_masks (m : nat) (points mask : rb bool) (values : list num) : res (rb bool * rb bool * list num) :=
    do bad <- apply_validation values m;
    do p <- rb_push points bad;
    let points := fst p in
    let values := if existsb (fun b => b) bad then zero_out values bad else values in
    do mask <- (if m <=? length (rb_view points) then
                  do ws <- windows (slice_from (rb_view points) (- (Z.of_nat (length values) + Z.of_nat m - 1))) m;
                  do k <- rb_push mask (map (existsb (fun b => b)) ws);
                  Ok (fst k)
                else Ok mask);
    Ok (points, mask, values).

  (** 166-178 *)
  Definition fs_append_series (f : fstream) (values : list num) : res fstream :=
    do r <- fs_masks (fs_m f) (fs_is f) (fs_ms f) values;
    let '(is, ms, values) := r in
    do g <- g_s (fs_g f) values;
    Ok (mkFs g (fs_m f) (fs_self f) is (fs_iq f) ms (fs_mq f)).

  (** 180-195 *)
  Definition fs_append_query (f : fstream) (values : list num) : res fstream :=
    if fs_self f then Err RuntimeError
    else
      do r <- fs_masks (fs_m f) (fs_iq f) (fs_mq f) values;
      let '(iq, mq, values) := r in
      do g <- g_q (fs_g f) values;
      Ok (mkFs g (fs_m f) (fs_self f) (fs_is f) iq (fs_ms f) mq).

  Definition fs_with (f : fstream) (g : G) : fstream := mkFs g (fs_m f) (fs_self f) (fs_is f) (fs_iq f) (fs_ms f) (fs_mq f).

  (** 96-110, inherited *)
  Definition fs_calc_diagonal (f : fstream) (diag : Z) : res (fstream * list num) :=
    do r <- filter_diagonal (rb_view (fs_ms f)) (rb_view (fs_qmask f)) (fs_g f) diag;
    Ok (fs_with f (fst r), snd r).

  (** 197-204 *)
  Definition fs_calc_column (f : fstream) (column : nat) : res (fstream * list num) :=
    do b <- getitem (rb_view (fs_ms f)) column;
    if b : bool then Ok (f, repeat PInf (length (rb_view (fs_qmask f))))
    else
      do r <- g_col (fs_g f) column;
      do d <- set_inf (snd r) (rb_view (fs_qmask f));
      Ok (fs_with f (fst r), d).
End Filter.

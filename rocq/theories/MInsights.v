(** * MInsights: model of distancematrix/insights.py *)
From Verif Require Import Np.
Set Implicit Arguments.

Section Insights.
  Context {A : Type} {NA : NumOps A}.
  Notation num := (num A).

  (** insights.py 23-27: the loop of the generator.  The generator is modelled by the list of all values it
      yields; [fuel] bounds the number of iterations.  [array[min_idx] != np.inf] is IEEE inequality, true
      for NaN. *)
  Fixpoint lvi_loop (fuel : nat) (array : list num) (exclude : nat) (min_idx : nat) : res (list nat) :=
    do x <- getitem array min_idx;
    if feqb x PInf then Ok []
    else match fuel with
         | O => Err OutOfFuel
         | S fuel' =>
             let array := fill_slice array (min_idx - exclude) (min_idx + exclude + 1) PInf in
             do min_idx' <- argmin array;
             do rest <- lvi_loop fuel' array exclude min_idx';
             Ok (min_idx :: rest)
         end.

  (** insights.py 4-29 for a 1-D array and an integer [exclude_distance].
      The subtraction [min_idx - exclude_distance] is cut off at 0 by [max]. *)
  Definition lowest_value_idxs (fuel : nat) (array : list num) (exclude_distance : Z) : res (list nat) :=
    if (exclude_distance <? 0)%Z then Err RuntimeError
    else
      let array := map (fun x => if isfinite x then x else PInf) array in
      do min_idx <- argmin array;
      lvi_loop fuel array (Z.to_nat exclude_distance) min_idx.

  (** insights.py 32-41 *)
  Definition highest_value_idxs (fuel : nat) (array : list num) (exclude_distance : Z) : res (list nat) :=
    lowest_value_idxs fuel (map fopp array) exclude_distance.
End Insights.

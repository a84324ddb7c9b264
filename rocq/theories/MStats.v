(** * MStats: model of distancematrix/math_tricks.py *)
From Coq Require Import QArith.
From Verif Require Import Np MRing MArith.
Set Implicit Arguments.
Open Scope nat_scope.

Section Stats.
  Context {A : Type} {NA : NumOps A}.
  Notation num := (Np.num A).

  (** [np.mean], [np.var], [np.std] of one window *)
  Definition np_mean (l : list num) : num := fdiv (fsum l) (fofZ (Z.of_nat (length l))).
  Definition np_var (l : list num) : num := np_mean (map (fun x => fsquare (fsub x (np_mean l))) l).
  Definition np_std (l : list num) : num := froot (np_var l).

  (** math_tricks.py 6-25 / 28-47 ([m] is an integer, the series has one dimension) *)
  Definition sliding_mean_with (spread : list num -> num) (series : list num) (m : Z) : res (list num * list num) :=
    if (m <=? 0)%Z then Err RuntimeError
    else if negb (forallb isfinite series) then Err RuntimeError
    else
      do ws <- windows series (Z.to_nat m);
      Ok (map np_mean ws, map spread ws).
  Definition sliding_mean_std := sliding_mean_with np_std.
  Definition sliding_mean_var := sliding_mean_with np_var.

  (** ** StreamingStats, 50-136 *)
  Record stats := mkStats { ss_data : rb num; ss_m : Z; ss_mean : rb num; ss_std : rb num }.

  (** 60-76; the buffers have the default scaling factor 2 *)
  Definition stats_new (mem : nat -> num) (series : list num) (m : Z) : res stats :=
    if (Z.of_nat (length series) <? m)%Z then Err RuntimeError
    else
      do d <- rb_new mem (Some series) None true 2;
      do ms <- sliding_mean_std series m;
      do mu <- rb_new mem (Some (fst ms)) None true 2;
      do sd <- rb_new mem (Some (snd ms)) None true 2;
      Ok (mkStats d m mu sd).

  (** 78-87 *)
  Definition stats_append (s : stats) (data : list num) : res stats :=
    let n := Z.of_nat (length data) in
    if (n =? 0)%Z then Ok s
    else
      do d <- rb_push (ss_data s) data;
      do ms <- sliding_mean_std (slice_from (rb_view (fst d)) (Z.max (- ss_m s - 1 - n) 0)) (ss_m s);
      do mu <- rb_push (ss_mean s) (fst ms);
      do sd <- rb_push (ss_std s) (snd ms);
      Ok (mkStats (fst d) (ss_m s) (fst mu) (fst sd)).
End Stats.

(** * MRejected: what is left of an object whose append raised.  The models of MStats and MZnorm return the exception only; here the
    assignments before the exception are kept.  The exceptions are those of sliding_mean_std (math_tricks.py 21-22, 43-44): values that
    are not finite.  (A push can only raise with scaling factors above 2, and is taken to change nothing.) *)
From Coq Require Import QArith.
From Verif Require Import Np MRing MArith MStats MCache MZnorm SGen.
Set Implicit Arguments.
Open Scope nat_scope.

Section Rejected.
  Context {A : Type} {NA : NumOps A}.
  Notation num := (Np.num A).

  (** math_tricks.py 78-87: StreamingStats.append *)
  Definition stats_append_st (s : stats) (data : list num) : stats * option exn :=
    let n := Z.of_nat (length data) in
    if (n =? 0)%Z then (s, None)
    else
      match rb_push (ss_data s) data with
      | Err e => (s, Some e)
      | Ok d =>
          let s1 := mkStats (fst d) (ss_m s) (ss_mean s) (ss_std s) in
          match sliding_mean_std (slice_from (rb_view (fst d)) (Z.max (- ss_m s - 1 - n) 0)) (ss_m s) with
          | Err e => (s1, Some e)
          | Ok ms =>
              match rb_push (ss_mean s) (fst ms) with
              | Err e => (s1, Some e)
              | Ok mu =>
                  match rb_push (ss_std s) (snd ms) with
                  | Err e => (mkStats (fst d) (ss_m s) (fst mu) (ss_std s), Some e)
                  | Ok sd => (mkStats (fst d) (ss_m s) (fst mu) (fst sd), None)
                  end
              end
          end
      end.

  (** A caller that catches the exceptions *)
  Fixpoint stats_appends (s : stats) (chunks : list (list num)) : stats * list (option exn) :=
    match chunks with
    | [] => (s, [])
    | c :: chunks => let r := stats_append_st s c in let r' := stats_appends (fst r) chunks in (fst r', snd r :: snd r')
    end.

  (** znorm_euclidean.py 152-173: append_series.  156-158 precede the statistics, 167-173 follow them. *)
  Definition zn_append_series_st (g : zn) (values : list num) : zn * option exn :=
    if length values =? 0 then (g, None)
    else
      match cache_append_s (zn_c g) values with
      | Err e => (g, Some e)
      | Ok c =>
          match zstats_append (ch_m c) (rb_view (ch_series c)) (length values) (zn_s g) with
          | Err e =>
              let o := zn_c g in
              (mkZn (mkCache (ch_m o) (ch_self o) (ch_series c) (ch_qbuf o) (ch_first o) (ch_backlog c) (ch_prev o) (ch_vals o))
                 (zn_noise g) (zn_s g) (zn_q g), Some e)
          | Ok zs => (mkZn c (zn_noise g) zs (zn_q g), None)
          end
      end.

  (** 175-191: append_query.  Everything but the statistics is done before they are calculated. *)
  Definition zn_append_query_st (g : zn) (values : list num) : zn * option exn :=
    if ch_self (zn_c g) then (g, Some RuntimeError)
    else if length values =? 0 then (g, None)
    else
      match cache_append_q (zn_c g) values with
      | Err e => (g, Some e)
      | Ok c =>
          match zstats_append (ch_m c) (rb_view (ch_qbuf c)) (length values) (zn_q g) with
          | Err e => (mkZn c (zn_noise g) (zn_s g) (zn_q g), Some e)
          | Ok zq => (mkZn c (zn_noise g) (zn_s g) zq, None)
          end
      end.

  (** A caller that catches the exceptions of appends, but not those of calculations *)
  Definition zn_caught (mem : nat -> num) (g : zn) (o : gcall num) : res zn :=
    match o with
    | CSeries xs => Ok (fst (zn_append_series_st g xs))
    | CQuery xs => Ok (fst (zn_append_query_st g xs))
    | CCol c => do r <- zn_calc_column mem g c; Ok (fst r)
    | CDiag d => do r <- zn_calc_diagonal g d; Ok (fst r)
    end.
End Rejected.

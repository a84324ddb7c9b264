(** * MValmod: model of distancematrix/valmod.py *)
From Coq Require Import QArith.
From Verif Require Import Np MRing MUtil MArith MStats MCache MZnorm MOstinato.
Set Implicit Arguments.
Open Scope nat_scope.

(** Series are one-dimensional arrays (the test of ndim succeeds), the lengths and the cache size are ints. *)
Section Valmod.
  Context {A : Type} {NA : NumOps A}.
  Notation num := (Np.num A).
  Notation zn := (@MZnorm.zn A).
  Variables (mem : nat -> num) (memb : nat -> bool).
  (** [np.argsort]; the order of equal keys is NumPy's choice *)
  Variable argsort : list num -> list nat.
  (** 102: [exceeds k n] answers [k > n * np.log(n)].  The model works for every answer. *)
  Variable exceeds : nat -> nat -> bool.

  (** 194-199 *)
  Record lbentry := mkLb { lb_q : nat; lb_s : nat; lb_base : num; lb_dot : num }.

  (** [np.minimum], [np.clip(x, 0, 1)] *)
  Definition fminimum (x y : num) : num := if isnan x then x else if isnan y then y else if fltb y x then y else x.
  Definition clip01 (x : num) : num := fminimum (fmaximum x fzero) (fofZ 1).
  (** [np.searchsorted(l, v)] of an ascending array: the number of leading elements below [v] *)
  Fixpoint searchsorted (l : list num) (v : num) : nat := match l with [] => 0 | x :: l => if fltb x v then S (searchsorted l v) else 0 end.

  (** 151-153, 113-115: [distances] outside the trivial-match zone *)
  Definition mask_trivial (distances : list num) (c buffer : nat) : list num := fill_slice distances (c - buffer) (c + buffer + 1) PInf.

  (** 174-176: the array lower_bound_base of column [c] *)
  Definition lower_bounds (m : nat) (dotprod mu std : list num) (mu_c std_c : num) (c buffer : nat) : res (list num) :=
    let M := fofZ (Z.of_nat m) in
    do a <- bop fsub (map (fun d => fdiv d M) dotprod) (map (fun x => fmul x mu_c) mu);
    do a <- bop fdiv a (map (fun x => fmul x std_c) std);
    Ok (mask_trivial (map (fun x => fmul (froot (fmul M (fsub (fofZ 1) (fsquare (clip01 x))))) std_c) a) c buffer).

  (** 178-188: the entries of column [c] *)
  Definition lb_entries (size c : nat) (lbs dotprod : list num) : res (list lbentry) :=
    let closest := firstn size (argsort lbs) in
    do last <- pyget closest (-1);
    do v <- getitem lbs last;
    do closest <- (if feqb v PInf then
                     do vs <- mapM (getitem lbs) closest; Ok (firstn (searchsorted vs PInf) closest)
                   else Ok closest);
    mapM (fun i => do b <- getitem lbs i; do d <- getitem dotprod i; Ok (mkLb i c b d)) closest.

  (** 160-189 *)
  Definition lb_list (g : zn) (size c buffer : nat) : res (list lbentry) :=
    let dotprod := ch_vals (zn_c g) in
    let mu := rb_view (zs_mu (zn_s g)) in
    let std := rb_view (zs_std (zn_s g)) in
    do std_c <- getitem std c;
    if feqb std_c fzero then Ok []
    else
      do mu_c <- getitem mu c;
      do lbs <- lower_bounds (ch_m (zn_c g)) dotprod mu std mu_c std_c c buffer;
      lb_entries size c lbs dotprod.

  (** Best distance so far, with its indices *)
  Definition best : Type := num * option (nat * nat).
  (** 112-120, 148-158: calculation of column [c], updating the best motif *)
  Definition try_column (g : zn) (c buffer : nat) (b : best) : res (zn * best) :=
    do r <- zn_calc_column mem g c;
    let distances := mask_trivial (snd r) c buffer in
    do v <- amin distances;
    if fltb v (fst b) then do i <- argmin distances; Ok (fst r, (v, Some (i, c))) else Ok (fst r, b).

  (** 128-191 *)
  Definition full_iteration (g : zn) (size buffer : nat) : res (list (list lbentry) * option (nat * nat)) :=
    do st <- foldM (fun st c =>
      let '(g, lists, b) := st in
      do r <- try_column g c buffer b;
      do l <- lb_list (fst r) size c buffer;
      Ok (fst r, lists ++ [l], snd r)) (seq 0 (length (rb_view (zs_mu (zn_s g))))) (g, [], (PInf, None));
    let '(_, lists, b) := st in
    Ok (lists, snd b).

  (** 60-83: the loop over the entries of column [i].  State: the entries (their dot products are updated in place),
      best_match_distance, best_match_entry, subseq_lower_bound. *)
  Definition scan_entry (g : zn) (series : list num) (m n buffer i : nat) (st : list lbentry * num * option lbentry * num) (e : lbentry) :
    res (list lbentry * num * option lbentry * num) :=
    let '(done, bd, be, lb) := st in
    if (lb_q e - i) + (i - lb_q e) <=? buffer then Ok (done ++ [e], bd, be, lb)
    else if (n <=? lb_q e) || (n <=? lb_s e) then Ok (done ++ [e], bd, be, lb)
    else
      do x <- getitem series (lb_q e + m - 1);
      do y <- getitem series (lb_s e + m - 1);
      let e := mkLb (lb_q e) (lb_s e) (lb_base e) (fadd (lb_dot e) (fmul x y)) in
      do dist <- zn_calc_single g (lb_q e) (lb_s e) (Some (lb_dot e));
      let '(bd, be) := if fltb dist bd then (dist, Some e) else (bd, be) in
      do std <- getitem (rb_view (zs_std (zn_s g))) i;
      Ok (done ++ [e], bd, be, pymax lb (fdiv (lb_base e) std)).
  Definition scan_entries (g : zn) (series : list num) (m n buffer i : nat) (l : list lbentry) : res (list lbentry * num * option lbentry * num) :=
    foldM (scan_entry g series m n buffer i) l ([], PInf, None, fofZ (-1)).

  (** 57-94: the body of the loop over the columns.  State: lb_lists, the best candidate, and the pairs of invalid_subseq_idxs
      and invalid_subseq_lbs *)
  Definition scan_column (g : zn) (series : list num) (m n buffer : nat) (st : list (list lbentry) * best * list (nat * num)) (i : nat) :
    res (list (list lbentry) * best * list (nat * num)) :=
    let '(lists, b, invalid) := st in
    do l <- getitem lists i;
    do r <- scan_entries g series m n buffer i l;
    let '(l, bd, be, lb) := r in
    do lists <- setitem lists i l;
    if fltb bd lb then
      if fltb bd (fst b) then
        match be with
        | Some e => Ok (lists, (bd, Some (lb_q e, lb_s e)), invalid)
        | None => Err TypeError   (* attribute of None *)
        end
      else Ok (lists, b, invalid)
    else Ok (lists, b, invalid ++ [(i, lb)]).

  (** 110-120: the columns that may contain a better match *)
  Definition recalculate (g : zn) (buffer : nat) (b : best) (invalid : list (nat * num)) : res (zn * best) :=
    foldM (fun st p => let '(g, b) := st in if fltb (snd p) (fst b) then try_column g (fst p) buffer b else Ok (g, b)) invalid (g, b).

  (** 47-123: the iteration for length [m] *)
  Definition next_length (series : list num) (noise : num) (size buffer m : nat) (lists : list (list lbentry)) :
    res (list (list lbentry) * option (nat * nat)) :=
    if length series + 1 <? m then Err ValueError   (* a buffer of negative length *)
    else
      do g <- zn_prepare mem memb noise 2 m series None;
      let n := length series + 1 - m in
      do st <- foldM (scan_column g series m n buffer) (seq 0 n) (lists, (PInf, None), []);
      let '(lists, b, invalid) := st in
      do found <- (match snd b with
                   | None => Ok false
                   | Some _ => do v <- amin (map snd invalid); Ok (fleb (fst b) v)
                   end);
      if found then Ok (lists, snd b)
      else if exceeds (length invalid) n then full_iteration g size buffer
      else
        do r <- recalculate g buffer b invalid;
        Ok (lists, snd (snd r)).

  (** 6-125.  [int(np.ceil(min / 2))] is [(min + 1) / 2]. *)
  Definition find_variable_length_motifs (series : list num) (min_length max_length cache_size : Z) (noise : num) : res (list (option (nat * nat))) :=
    if (min_length <? 2)%Z then Err RuntimeError
    else if (max_length <? min_length)%Z then Err RuntimeError
    else if (cache_size <? 0)%Z then Err RuntimeError
    else
      let m0 := Z.to_nat min_length in
      let buffer := (m0 + 1) / 2 in
      let size := Z.to_nat cache_size in
      if length series + 1 <? m0 then Err ValueError   (* a buffer of negative length *)
      else
        do g <- zn_prepare mem memb noise 2 m0 series None;
        do r <- full_iteration g size buffer;
        do st <- foldM (fun st m =>
          let '(lists, motifs) := st in
          do r <- next_length series noise size buffer m lists;
          Ok (fst r, motifs ++ [snd r])) (seq (m0 + 1) (Z.to_nat max_length - m0)) (fst r, [snd r]);
        Ok (snd st).
End Valmod.

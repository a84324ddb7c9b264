(** * ConfAlgo: the unit tests of test_math_tricks.py, test_ostinato.py and test_valmod.py, on the model in binary64

    Left out: the tests of sliding_mean_std and sliding_mean_var, which the model defines by the formulas the tests compare with, and the test
    the project skips.  Equal elements are sorted by index.  The tests are evaluated when the file
    is compiled ([Eval vm_compute]), and the examples are about the result. *)
From Coq Require Import QArith Floats.SpecFloat.
From Verif Require Import Np Mat MRing MUtil MArith MStats MCache MZnorm MCalc MOstinato MValmod InstF ConfFloat.
Open Scope nat_scope.

(** ** TestStreamingStatistics *)
Definition stats_data : list N :=
  [Dec 515 2; Dec 215 2; Dec 105 2; Dec (-92) 1; Dec 1 2; Dec 714 2; Dec 418 2; Dec 102 1; Dec 325 2; Dec 141 1; Dec (-985) 2; Dec 512 2; Dec 11 2; Dec 14 2; Dec 98 2; F 0; F 0; F 0; F 0; F 0; F 0; F 1; F 1; F 1; F 1; F 1; F 1; F 1; F 1; F 1; F 1; F (-50); F (-50); F (-50); F (-50); F (-50); F (-50); F 100000000; F 1600000000; F 90000000; F 60000; F 560; F 9900000; F 90000000; F 64800; F 92000; F 100000000; F 31400000; F 42; F 1].
Definition exactly (a b : list N) : bool := all2 feqb a b.
Definition stats_ok (s : stats) (start len m : nat) (atol : N) : bool :=
  let ws := map (fun i => lslice stats_data (start + i) (start + i + m)) (seq 0 (len + 1 - m)) in
  exactly (rb_view (ss_data s)) (lslice stats_data start (start + len)) &&
  allclose atol (rb_view (ss_mean s)) (map np_mean ws) && allclose atol (rb_view (ss_std s)) (map np_std ws).
(** [_test_for_params] *)
Definition test_for_params (len m step : nat) : bool :=
  match (do s <- stats_new mem (lslice stats_data 0 len) (Z.of_nat m);
         do s <- ok (stats_ok s 0 len m fzero) s;
         foldM (fun st _ =>
           let '(s, start) := st in
           if start + len + step <? length stats_data
           then do s <- stats_append s (lslice stats_data (start + len) (start + len + step));
                do s <- ok (stats_ok s (start + step) len m (Dec 2 15)) s;
                Ok (s, start + step)
           else Ok st) (seq 0 50) (s, 0)) with
  | Ok (_, start) => negb (start + len + step <? length stats_data)
  | Err _ => false
  end.
Definition test_different_m_ : bool :=
  forallb (fun p => test_for_params (fst p) (snd p) 1) (list_prod [10; 5] [5; 4; 3; 2; 1]).
Definition test_different_m_value := Eval vm_compute in test_different_m_.
Example test_different_m : test_different_m_value = true.
Proof. reflexivity. Qed.
Definition test_different_stepsize_ : bool :=
  forallb (test_for_params 10 5) [1; 2; 3; 4; 5; 6; 7; 9; 10; 11; 12].
Definition test_different_stepsize_value := Eval vm_compute in test_different_stepsize_.
Example test_different_stepsize : test_different_stepsize_value = true.
Proof. reflexivity. Qed.

(** ** TestOstinato *)
Definition deci (k : Z) (l : list (list Z)) : list (list N) := map (map (fun v => Dec v k)) l.
Fixpoint ins (key : nat -> N) (i : nat) (l : list nat) : list nat :=
  match l with [] => [i] | j :: l' => if fltb (key j) (key i) then j :: ins key i l' else i :: l end.
Definition argsort_ (l : list N) : list nat := fold_right (ins (fun i => nth i l NaN)) [] (seq 0 (length l)).
Definition same_order (l : list nat) : list nat := l.
Definition no_shuffle (l : list Z) : list Z := l.
Definition consensus_motif := find_consensus_motif mem memb argsort_.
(** [find_consensus_motif_bruteforce] for the series of [C] in the order [p]; the matrix profiles of the pairs of series are calculated once,
    with the AnytimeCalculator *)
Definition profiles (C : list (list N)) (m : Z) : res (list (list (list N))) :=
  mapM (fun a => mapM (fun b => calculate_mp mem memb same_order no_shuffle (fun _ => false) m a b) C) C.
Definition consensus_brute (mps : list (list (list N))) (p : list nat) : res (@cmresult f64) :=
  foldM (fun best s =>
    do row <- getitem mps (nth s p 0);
    do radii <- foldM (fun radii o => if s =? o then Ok radii else do mp <- getitem row (nth o p 0); bop fmaximum radii mp)
      (seq 0 (length p)) (repeat fzero (length (nth 0 row [])));
    do i <- argmin radii;
    do r <- getitem radii i;
    Ok (if fltb r (cm_radius best) then mkCm r (Z.of_nat s) (Z.of_nat i) else best)) (seq 0 (length p)) (@cm_start f64).
(** [npt.assert_almost_equal] *)
Definition almost (a b : N) : bool := plain a && plain b && fltb (fabs (fsub a b)) (Dec 15 8).
Fixpoint inserts {T} (x : T) (l : list T) : list (list T) := (x :: l) :: match l with [] => [] | y :: l => map (cons y) (inserts x l) end.
Fixpoint perms {T} (l : list T) : list (list T) := match l with [] => [[]] | x :: l => flat_map (inserts x) (perms l) end.
Definition pick (C : list (list N)) (p : list nat) : list (list N) := map (fun i => nth i C []) p.
Fixpoint index_of (x : nat) (l : list nat) : nat := match l with [] => 0 | y :: l => if x =? y then 0 else S (index_of x l) end.

Definition exact_list : list (list N) := deci 2
  [[4; 45; 45; 0; 90; 90; 74; 72; 48; 82; 49; 36; 2; 37; 21];
   [8; 19; 25; 59; 50; 72; 16; 45; 149; 149; 49; 249; 249; 92; 16];
   [29; 42; 96; 168; 168; 100; 236; 236; 14; 22; 51; 45; 1; 66; 53];
   [84; 1; 1; 0; 2; 2; 51; 53; 91; 94; 47; 36; 28; 15; 8]]%Z.
Definition test_exact_match_ : bool :=
  match profiles exact_list 5 with
  | Ok mps => forallb (fun p =>
    match consensus_motif (pick exact_list p) 5, consensus_brute mps p with
    | Ok r, Ok b =>
        let good (c : cmresult) := almost (cm_radius c) fzero && (cm_series c =? 0)%Z && (cm_subseq c =? nth (nth 0 p 0%nat) [1; 8; 3; 1] 9)%Z in
        good r && good b
    | _, _ => false
    end) (perms [0; 1; 2; 3])
  | Err _ => false
  end.
Definition test_exact_match_value := Eval vm_compute in test_exact_match_.
Example test_exact_match : test_exact_match_value = true.
Proof. reflexivity. Qed.

Definition near_list : list (list N) := deci 2
  [[4; 40; 50; 45; 90; 90; 74; 72; 48; 82; 49; 36; 2; 37; 21];
   [8; 19; 25; 59; 50; 72; 16; 45; 153; 144; 149; 249; 249; 92; 16];
   [29; 42; 96; 168; 178; 158; 236; 236; 14; 22; 51; 45; 1; 66; 53];
   [84; 1; 1; 1; 2; 2; 51; 53; 91; 94; 47; 36; 28; 15; 8]]%Z.
Definition test_near_match_ : bool :=
  match profiles near_list 5 with
  | Ok mps => forallb (fun p =>
    match consensus_motif (pick near_list p) 5, consensus_brute mps p with
    | Ok r, Ok b =>
        let good (c : cmresult) := (cm_series c =? Z.of_nat (index_of 3 p))%Z && (cm_subseq c =? 1)%Z in
        almost (cm_radius r) (cm_radius b) && good r && good b
    | _, _ => false
    end) (perms [0; 1; 2; 3])
  | Err _ => false
  end.
Definition test_near_match_value := Eval vm_compute in test_near_match_.
Example test_near_match : test_near_match_value = true.
Proof. reflexivity. Qed.

Definition random_list : list (list N) := deci 3
  [[292; 183; 509; 128; 718; 54; 700; 532; 178; 76; 460; 27; 882; 288; 746];
   [570; 539; 239; 328; 784; 614; 288; 696; 120; 337; 540; 401; 589; 461; 666];
   [454; 487; 687; 981; 240; 863; 458; 203; 798; 917; 336; 562; 266; 325; 818];
   [749; 886; 95; 335; 247; 403; 63; 47; 804; 976; 836; 65; 270; 590; 747];
   [196; 924; 968; 190; 999; 310; 908; 576; 521; 246; 444; 319; 781; 628; 183];
   [136; 444; 115; 954; 231; 876; 566; 886; 898; 287; 544; 365; 108; 345; 30];
   [813; 324; 465; 459; 565; 280; 334; 169; 479; 957; 621; 26; 998; 732; 365];
   [176; 72; 288; 915; 867; 215; 566; 555; 602; 943; 786; 404; 271; 579; 362];
   [700; 113; 159; 701; 476; 216; 359; 613; 358; 871; 888; 668; 604; 574; 555];
   [745; 298; 213; 669; 303; 737; 930; 998; 529; 215; 839; 666; 669; 583; 168]]%Z.
Definition random_motif := Eval vm_compute in consensus_motif random_list 5.
Definition random_brute := Eval vm_compute in (do mps <- profiles random_list 5; consensus_brute mps (seq 0 10)).
Definition test_on_random_data_ : bool :=
  match random_motif, random_brute with
  | Ok r, Ok b => almost (cm_radius r) (cm_radius b) && (cm_series r =? cm_series b)%Z && (cm_subseq r =? cm_subseq b)%Z
  | _, _ => false
  end.
Definition test_on_random_data_value := Eval vm_compute in test_on_random_data_.
Example test_on_random_data : test_on_random_data_value = true.
Proof. reflexivity. Qed.

(** ** TestValmod *)
Definition valmod_data : list N := map (fun v => Dec v 2)
  [-161; -43; -43; 82; 42; 158; -46; 141; 131; -13; -5; 59; 176; -43; -14; -14; 107; 110; 84; -149]%Z.
(** [bruteforce_full_matrix_iteration]; the data has no flat subsequences *)
Fixpoint ins_e (e : @lbentry f64) (l : list lbentry) : list lbentry :=
  match l with [] => [e] | x :: l' => if fltb (lb_base x) (lb_base e) then x :: ins_e e l' else e :: l end.
Definition brute_iteration (series : list N) (m size buffer : nat) : list (list (@lbentry f64)) * option (nat * nat) :=
  let n := length series + 1 - m in
  let cut i := lslice series i (i + m) in
  let mu := map (fun i => np_mean (cut i)) (seq 0 n) in
  let sd := map (fun i => np_std (cut i)) (seq 0 n) in
  let M := F (Z.of_nat m) in
  let far s q := (buffer <? s - q) || (buffer <? q - s) in
  let dot s q := fdot (cut s) (cut q) in
  let at_ l i := nth i l NaN in
  let dist s q := fmul (F 2) (fsub M (fdiv (fsub (dot s q) (fmul (fmul M (at_ mu s)) (at_ mu q))) (fmul (at_ sd s) (at_ sd q)))) in
  let lb s q := fmul (froot (fmul M (fsub (F 1) (fsquare (clip01 (fdiv (fsub (fdiv (dot s q) M) (fmul (at_ mu s) (at_ mu q))) (fmul (at_ sd s) (at_ sd q))))))) ) (at_ sd s) in
  let entries s := map (fun q => mkLb q s (lb s q) (dot s q)) (filter (far s) (seq 0 n)) in
  (map (fun s => firstn size (fold_right ins_e [] (entries s))) (seq 0 n),
   snd (fold_left (fun b p => let '(s, q) := p in if far s q then let d := dist s q in if fltb d (fst b) then (d, Some (s, q)) else b else b)
          (list_prod (seq 0 n) (seq 0 n)) (PInf, None))).
(** The entries before the first one with the last lower bound are compared; the dot products of the others are calculated again. *)
Definition upto (l : list (@lbentry f64)) : nat :=
  match rev l with [] => 0 | e :: _ => length (filter (fun x => fltb (lb_base x) (lb_base e)) l) end.
Definition lists_ok (m : nat) (b c : list (@lbentry f64)) : bool :=
  allclose fzero (map (@lb_base f64) b) (map (@lb_base f64) c) &&
  (let k := upto b in
   all2 (fun x y => close (Dec 1 7) fzero (lb_dot x) (lb_dot y) && (lb_q x =? lb_q y) && (lb_s x =? lb_s y)) (firstn k b) (firstn k c) &&
   forallb (fun e => almost (fdot (lslice valmod_data (lb_q e) (lb_q e + m)) (lslice valmod_data (lb_s e) (lb_s e + m))) (lb_dot e)) (skipn k c)).
Definition same_pair (a b : option (nat * nat)) : bool :=
  match a, b with
  | Some (x, y), Some (u, v) => ((x =? u) && (y =? v)) || ((x =? v) && (y =? u))
  | None, None => true
  | _, _ => false
  end.
Definition full_iteration_ok (m size : nat) : bool :=
  let buffer := Nat.div2 (m + 1) in
  match (do g <- zn_prepare mem memb fzero 2%Q m valmod_data None; full_iteration mem argsort_ g size buffer) with
  | Ok (lists, motif) =>
      let '(blists, bmotif) := brute_iteration valmod_data m size buffer in same_pair motif bmotif && all2 (lists_ok m) blists lists
  | Err _ => false
  end.
Definition test_find_all_motifs_full_matrix_iteration_normal_data_ : bool :=
  forallb (fun p => full_iteration_ok (fst p) (snd p)) [(4, 1); (4, 5); (10, 5)].
Definition test_find_all_motifs_full_matrix_iteration_normal_data_value := Eval vm_compute in test_find_all_motifs_full_matrix_iteration_normal_data_.
Example test_find_all_motifs_full_matrix_iteration_normal_data : test_find_all_motifs_full_matrix_iteration_normal_data_value = true.
Proof. reflexivity. Qed.

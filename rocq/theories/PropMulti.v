(** * Properties C49-C50: MultidimensionalMatrixProfileLR *)
From Coq Require Import QArith Permutation Sorted.
From Verif Require Import Np NpFacts Mat SLog MProfile MMulti SMulti PSort PMulti PMultiRun PMultiRaise PLog Inst.
Open Scope nat_scope.

(** C49. After every history of columns and shifts, for every number of channels D, the entry for k+1 dimensions of
    every column holds the smallest, over the delivered rows on its side, average of the k+1 smallest channel distances,
    with the absolute row and the channels attaining it; the merged entry is the best over both sides. *)
Theorem C49_columns : forall (A : Type) {NA : NumOps A} {OL : OrdLaws A} {AL : AvgLaws A}
  memn memz memd (sf : Q) D h w argsort (es : list (event (Np.num A))),
  (1 <= sf)%Q -> (sf <= 2)%Q -> 0 < D -> 0 < w -> argsorts argsort -> Forall (mfits D h w) es ->
  Forall (fun e => ~ is_diag e) es ->
  exists s0 s, md_init memn memz memd sf D h w = Ok s0 /\ md_run argsort s0 es = Ok s /\
    forall k c, k < D -> c < w -> let a := (sshift es + Z.of_nat c)%Z in
      exists l r m, md_left s k c = Ok l /\ md_right s k c = Ok r /\ md_merged s k c = Ok m /\
        md_best (mlog es) (is_left a) a k l /\ md_best (mlog es) (is_right a) a k r /\ md_best (mlog es) all_rows a k m.
Proof. exact @C49_lemma. Qed.
Print Assumptions C49_columns.

(** The stored distance is determined by the delivered cells. *)
Theorem C49_unique : forall (A : Type) {NA : NumOps A} {OL : OrdLaws A} L P a k (x y : Np.num A * Z * list Z),
  (forall r c vals, In (r, c, vals) L -> forall v, In v vals -> isnan v = false) ->
  md_best L P a k x -> md_best L P a k y -> fst (fst x) = fst (fst y).
Proof. exact @md_best_unique. Qed.
Print Assumptions C49_unique.

(** C50, for diagonals mixed with columns and shifts.  Missing: diagonals that the shifts moved to the other side of the main
    diagonal, and diagonals with rows beyond the number of series subsequences; for both the statement is false, see below. *)
Theorem C50_diagonals_partial : forall (A : Type) {NA : NumOps A} {OL : OrdLaws A} {AL : AvgLaws A}
  memn memz memd (sf : Q) D h w argsort (es : list (event (Np.num A))),
  (1 <= sf)%Q -> (sf <= 2)%Q -> 0 < D -> 0 < w -> argsorts argsort -> Forall (mfits D h w) es ->
  Forall nonneg (filter (fun e => match e with EDiag _ _ => true | _ => false end) es) -> md_diags_ok w 0 es ->
  exists s0 s, md_init memn memz memd sf D h w = Ok s0 /\ md_run argsort s0 es = Ok s /\
    forall k c, k < D -> c < w -> let a := (sshift es + Z.of_nat c)%Z in
      exists l r m, md_left s k c = Ok l /\ md_right s k c = Ok r /\ md_merged s k c = Ok m /\
        md_best (mlog es) (is_left a) a k l /\ md_best (mlog es) (is_right a) a k r /\ md_best (mlog es) all_rows a k m.
Proof. exact @C50_lemma. Qed.
Print Assumptions C50_diagonals_partial.

(** Profiles that are not shifted, which are those that calculators deliver diagonals to: the entries are right, and the run raises
    IndexError iff a diagonal has rows beyond the number of series subsequences. *)
Theorem C50_unshifted : forall (A : Type) {NA : NumOps A} {OL : OrdLaws A} {AL : AvgLaws A}
  memn memz memd (sf : Q) D h w argsort (es : list (event (Np.num A))),
  (1 <= sf)%Q -> (sf <= 2)%Q -> 0 < D -> 0 < w -> argsorts argsort -> Forall (mfits D h w) es -> Forall no_shift es ->
  Forall nonneg (filter (fun e => match e with EDiag _ _ => true | _ => false end) es) -> (forall d vs, In (EDiag d vs) es -> hd [] vs <> []) ->
  exists s0, md_init memn memz memd sf D h w = Ok s0 /\
    ((exists d vs, In (EDiag d vs) es /\ w < Z.to_nat (- d) + length (hd [] vs)) -> md_run argsort s0 es = Err IndexError) /\
    ((forall d vs, In (EDiag d vs) es -> Z.to_nat (- d) + length (hd [] vs) <= w) -> exists s, md_run argsort s0 es = Ok s /\
      forall k c, k < D -> c < w -> let a := Z.of_nat c in
        exists l r m, md_left s k c = Ok l /\ md_right s k c = Ok r /\ md_merged s k c = Ok m /\
          md_best (mlog es) (is_left a) a k l /\ md_best (mlog es) (is_right a) a k r /\ md_best (mlog es) all_rows a k m).
Proof.
  intros A NA OL AL memn memz memd sf D h w argsort es S1 S2 HD Hw Ha HF HN HP Hne. destruct (@md_init_ok A NA D h w HD Hw memn memz memd sf S1 S2) as (s0 & E0 & I0). exists s0. split; [exact E0|]. split.
  - intros (d & vs & Hin & Hl). apply (@unshifted_err A NA OL AL D h w HD Hw); try assumption. exists (EDiag d vs). split; [exact Hin|exact Hl].
  - intro Hs. destruct (@C50_lemma A NA OL AL memn memz memd sf D h w argsort es S1 S2 HD Hw Ha HF HP) as (s0' & s & E0' & E & G).
    + apply short_diags_ok; [assumption|]. intros [d vs| | |] Hin; try (intros []; fail). cbn [long]. specialize (Hs d vs Hin). lia.
    + rewrite E0 in E0'. injection E0' as <-. exists s. split; [exact E|]. destruct (no_shift_qs HN) as [_ Q2]. rewrite Q2 in G. exact G.
Qed.
Print Assumptions C50_unshifted.

(** A sorting permutation: insertion sort *)
Fixpoint fins (key : nat -> Np.num Z) (i : nat) (l : list nat) : list nat :=
  match l with [] => [i] | j :: l' => if fltb (key j) (key i) then j :: fins key i l' else i :: l end.
Definition fargsort (l : list (Np.num Z)) : list nat := fold_right (fins (fun i => nth i l NaN)) [] (seq 0 (length l)).

Lemma fins_perm key i l : Permutation (fins key i l) (i :: l).
Proof. induction l as [|j l IH]; cbn [fins]; [reflexivity|]. destruct (fltb _ _); [|reflexivity]. rewrite IH. apply perm_swap. Qed.
Lemma fins_sorted key i l : (forall j, In j (i :: l) -> isnan (key j) = false) ->
  StronglySorted (fun a b => fltb (key b) (key a) = false) l -> StronglySorted (fun a b => fltb (key b) (key a) = false) (fins key i l).
Proof.
  intros HN. induction 1 as [|j l Hl IH Hj]; cbn [fins]; [repeat constructor|]. destruct (fltb (key j) (key i)) eqn:E.
  - constructor; [apply IH; intros x [Hx|Hx]; apply HN; [left|right; right]; assumption|].
    apply Forall_forall. intros x Hx. apply (Permutation_in _ (fins_perm key i l)) in Hx.
    destruct Hx as [<-|Hx]; [apply fltb_asym, E|]. apply (proj1 (Forall_forall _ _) Hj x Hx).
  - constructor; [constructor; assumption|]. constructor; [exact E|]. apply Forall_forall. intros x Hx.
    eapply fltb_false_trans; [apply (HN j); right; left; reflexivity|apply (proj1 (Forall_forall _ _) Hj x Hx)|exact E].
Qed.

(** The assumption on [np.argsort] is satisfiable. *)
Theorem C49_argsort_exists : argsorts fargsort.
Proof.
  intros l HN. unfold fargsort. set (key := fun i => nth i l NaN).
  assert (P : forall s, Permutation (fold_right (fins key) [] s) s).
  { induction s as [|x s IH]; cbn [fold_right]; [reflexivity|]. rewrite fins_perm. constructor. exact IH. }
  assert (HK : forall i, i < length l -> isnan (key i) = false) by (intros i Hi; apply HN, nth_In, Hi).
  assert (S : forall s, (forall i, In i s -> i < length l) -> StronglySorted (fun a b => fltb (key b) (key a) = false) (fold_right (fins key) [] s)).
  { induction s as [|x s IH]; intro Hs; cbn [fold_right]; [constructor|]. apply fins_sorted; [|apply IH; intros; apply Hs; right; assumption].
    intros j [<-|Hj]; apply HK, Hs; [left; reflexivity|right]. apply (Permutation_in _ (P s) Hj). }
  split; [apply P|]. intros p q i j v w Hpq Hi Hj Hv Hw.
  assert (X : fltb (key j) (key i) = false).
  { apply (@sorted_nth _ _ _ (S (seq 0 (length l)) (fun i Hi => proj2 (proj1 (in_seq _ _ _) Hi))) p q i j Hpq Hi Hj). }
  unfold key in X. rewrite (nth_error_nth _ _ _ Hv), (nth_error_nth _ _ _ Hw) in X. exact X.
Qed.
Print Assumptions C49_argsort_exists.

Definition md_case (D h w : nat) (es : list (event (Np.num Z))) := 
  do s <- md_init (fun _ => NaN) (fun _ => 7%Z) (fun _ => []) 2 D h w; md_run fargsort s es.
Definition md_rows (s : res (@md Z)) (w k : nat) :=
  do s <- s; do l <- mapM (md_left s k) (seq 0 w); do r <- mapM (md_right s k) (seq 0 w); Ok (l, r).

(** Two channels, three columns of three rows, then a shift of both series and a new last column. *)
Definition md_ex : list (event (Np.num Z)) :=
  [ECol 0 [[Fz 4; Fz 8; Fz 2]; [Fz 6; Fz 0; Fz 10]]; ECol 1 [[Fz 3; Fz 5; Fz 9]; [Fz 1; Fz 7; Fz 5]];
   ECol 2 [[Fz 2; Fz 2; Fz 6]; [Fz 8; Fz 6; Fz 2]]; EShiftS 1; EShiftQ 1; ECol 2 [[Fz 9; Fz 1; Fz 6]; [Fz 1; Fz 3; PInf]]].
Example C49_case0 : md_rows (md_case 2 3 3 md_ex) 3 0 =
  Ok ([(Fz 1, 0, [1]); (Fz 2, 0, [0]); (Fz 1, 1, [1])], [(Fz 5, 2, [1]); (PInf, -1, [-1]); (PInf, -1, [-1])])%Z.
Proof. vm_compute. reflexivity. Qed.
Example C49_case1 : md_rows (md_case 2 3 3 md_ex) 3 1 =
  Ok ([(Fz 2, 0, [1; 0]); (Fz 4, 1, [0; 1]); (Fz 2, 2, [0; 1])], [(Fz 7, 2, [1; 0]); (PInf, -1, [-1; -1]); (PInf, -1, [-1; -1])])%Z.
Proof. vm_compute. reflexivity. Qed.

Definition md_ex2 : list (event (Np.num Z)) :=
  [EDiag 1 [[Fz 4; Fz 8]; [Fz 2; Fz 10]]; EDiag (-1) [[Fz 3; Fz 1]; [Fz 5; Fz 9]]; EDiag (-2) [[Fz 6]; [Fz 0]]].
Example C50_case0 : md_rows (md_case 2 3 3 md_ex2) 3 0 =
  Ok ([(PInf, -1, [-1]); (Fz 2, 0, [1]); (Fz 8, 1, [0])], [(Fz 0, 2, [1]); (Fz 1, 2, [0]); (PInf, -1, [-1])])%Z.
Proof. vm_compute. reflexivity. Qed.
Example C50_case1 : md_rows (md_case 2 3 3 md_ex2) 3 1 =
  Ok ([(PInf, -1, [-1; -1]); (Fz 3, 0, [1; 0]); (Fz 9, 1, [0; 1])], [(Fz 3, 2, [1; 0]); (Fz 5, 2, [0; 1]); (PInf, -1, [-1; -1])])%Z.
Proof. vm_compute. reflexivity. Qed.

(** Refuted: a query longer than the series.  One channel, three query and two series subsequences: the lowest
    diagonal raises IndexError. *)
Theorem C50_long_query_refuted : exists (es : list (event (Np.num Z))),
  Forall (mfits 1 3 2) es /\ Forall nonneg es /\ md_case 1 3 2 es = Err IndexError.
Proof.
  exists [EDiag (-2) [[Fz 5]]]. split; [|split; [|vm_compute; reflexivity]].
  - constructor; [|constructor]. split; [lia|]. exists 1. split; [|vm_compute; lia]. split; [reflexivity|].
    intros row [<-|[]]. split; [reflexivity|]. intros x [<-|[]]. split; discriminate.
  - constructor; [|constructor]. intros row x [<-|[]] [<-|[]]. reflexivity.
Qed.
Print Assumptions C50_long_query_refuted.

(** Refuted: after a shift of the query by one, diagonal 0 lies on the right and raises IndexError. *)
Theorem C50_shifted_query_refuted : exists (es : list (event (Np.num Z))),
  Forall (mfits 1 2 2) es /\ Forall nonneg es /\ md_case 1 2 2 es = Err IndexError.
Proof.
  exists [EShiftQ 1; EDiag 0 [[Fz 5; Fz 6]]]. split; [|split; [|vm_compute; reflexivity]].
  - constructor; [exact I|]. constructor; [|constructor]. split; [lia|]. exists 2. split; [|vm_compute; lia]. split; [reflexivity|].
    intros row [<-|[]]. split; [reflexivity|]. intros x [<-|[<-|[]]]; split; discriminate.
  - constructor; [exact I|]. constructor; [|constructor]. intros row x [<-|[]] [<-|[<-|[]]]; reflexivity.
Qed.
Print Assumptions C50_shifted_query_refuted.

(** Refuted: after a shift of the series by one, diagonal -1 of the window lies on the left, but its doubled values
    also appear on the right, where nothing was delivered. *)
Theorem C50_shifted_series_refuted : exists (es : list (event (Np.num Z))) s x,
  Forall (mfits 1 2 2) es /\ Forall nonneg es /\ md_case 1 2 2 es = Ok s /\ md_right s 0 0 = Ok x /\
  ~ md_best (mlog es) (is_right 1) 1 0 x.
Proof.
  exists [EShiftS 1; EDiag (-1) [[Fz 5]]]. eexists. exists (Fz 10, 1%Z, [0%Z]).
  split; [|split; [|split; [vm_compute; reflexivity|split; [vm_compute; reflexivity|]]]].
  - constructor; [exact I|]. constructor; [|constructor]. split; [lia|]. exists 1. split; [|vm_compute; lia]. split; [reflexivity|].
    intros row [<-|[]]. split; [reflexivity|]. intros x [<-|[]]; split; discriminate.
  - constructor; [exact I|]. constructor; [|constructor]. intros row x [<-|[]] [<-|[]]; reflexivity.
  - intros [(H & _)|(_ & H & _)]; discriminate H.
Qed.
Print Assumptions C50_shifted_series_refuted.

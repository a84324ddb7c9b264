(** * SEndAll: complete programs with an AnytimeCalculator, any generators and any consumers *)
From Coq Require Import QArith Reals Permutation.
From Verif Require Import Np Mat MUtil SLog MCalc SReal SCalc SMixed SGen SFilter SEnd MEuclid MZnorm MFilter MCache.
Set Implicit Arguments.
Open Scope nat_scope.

(** ** The program: an AnytimeCalculator; one generator per element of [dims], which is its channel; the consumers, each with the
    numbers of its generators and its [initialise]; then the given calls.  The result is the state of the consumers. *)
Section Program.
  Context {A : Type} {NA : NumOps A}.
  Notation num := (Np.num A).
  Variables (X G C : Type).
  Variable g_col : G -> nat -> res (G * list num).
  Variable g_diag : G -> Z -> res (G * list num).
  Variable prepare : Z -> list X -> option (list X) -> res G.
  Variable c_step : C -> event num -> res C.
  Variable set_order : list nat -> list nat.
  Variable shuffle : list Z -> list Z.

  Definition program (m : Z) (series : list (list X)) (query : option (list (list X))) (buffer : option Z) (dims : list Z)
      (consumers : list (list nat * (nat -> Z -> Z -> res C))) (calls : list acall) : res (list C) :=
    do a <- any_new G C shuffle m series query buffer;
    do a <- foldM (any_add_generator prepare) dims a;
    do s <- foldM (fun s c => add_consumer s (fst c) (snd c)) consumers (an_calc a);
    do a <- foldM (any_call g_col g_diag c_step set_order) calls (mkAny s (an_series a) (an_query a) (an_order a) (an_total a) (an_next a) (an_done a));
    Ok (map fst (ca_cons (an_calc a))).
End Program.

(** ** What consumers should be told *)
Section Delivery.
  Context {A : Type}.
  Notation num := (Np.num A).
  (** Column [c] and diagonal [d] of the h x w matrix with entries [D r c] *)
  Definition column_of (h : nat) (D : nat -> nat -> num) (c : nat) : list num := map (fun r => D r c) (seq 0 h).
  Definition diagonal_of (h w : nat) (D : nat -> nat -> num) (d : Z) : list num := diag_of (fun r c => D (Z.to_nat r) (Z.to_nat c)) h w d.
  (** The calls for the delivered parts [t], to a consumer of the generators [ids]; generator [id] has the matrix [D id] *)
  Definition told (D : nat -> nat -> nat -> num) (h w : nat) (self : bool) (b : Z) (t : list part) (ids : list nat) : list (event num) :=
    mixed_calls (fun id => column_of h (D id)) (fun id => diagonal_of h w (D id)) self b t ids.
End Delivery.

(** The cell (r, j) was delivered: column [j] was, or the diagonal of (r, j), or (in a self-join) that of (j, r) *)
Definition delivered (self : bool) (t : list part) (r j : nat) : Prop :=
  In j (cols_in t) \/ In (Z.of_nat j - Z.of_nat r)%Z (diags_in t) \/ (self = true /\ In (Z.of_nat r - Z.of_nat j)%Z (diags_in t)).
(** (r, j) is a trivial match *)
Definition trivial (b : Z) (r j : nat) : Prop := (Z.abs (Z.of_nat r - Z.of_nat j) <= b)%Z.

(** The calls of one kind *)
Definition diags_call (c : acall) : Prop := match c with ADiags _ _ => True | _ => False end.
Definition cols_call (c : acall) : Prop := match c with ACols _ _ _ => True | _ => False end.

(** ** The generators: ZNormEuclidean, Euclidean, and FilterGenerator(ZNormEuclidean) with the default validity function *)
Inductive kind : Type := KZnorm (noise : R) | KEuclid | KFiltered (noise : R).
Definition kdist (k : kind) : list R -> list R -> R := match k with KZnorm noise | KFiltered noise => zdist noise | KEuclid => euclid end.
Definition kstate (k : kind) : Type := match k with KZnorm _ => @zn R | KEuclid => @cache R | KFiltered _ => fbatch (@zn R) end.

Section Kind.
  Variables (mem : nat -> num R) (memb : nat -> bool) (sf sf' : Q).
  Definition kprepare (k : kind) : Z -> list (num R) -> option (list (num R)) -> res (kstate k) :=
    match k with
    | KZnorm noise => fun m s q => zn_prepare mem memb (Fin noise) sf (Z.to_nat m) s q
    | KEuclid => fun m s q => eu_prepare mem sf (Z.to_nat m) s q
    | KFiltered noise => fun m s q => fb_prepare (@is_not_finite R) (fun m s q => zn_prepare mem memb (Fin noise) sf m s q) sf' (Z.to_nat m) s q
    end.
  Definition kcol (k : kind) : kstate k -> nat -> res (kstate k * list (num R)) :=
    match k with
    | KZnorm _ => zn_calc_column mem
    | KEuclid => eu_calc_column mem
    | KFiltered _ => fb_calc_column (zn_calc_column mem)
    end.
  Definition kdiag (k : kind) : kstate k -> Z -> res (kstate k * list (num R)) :=
    match k with
    | KZnorm _ => @zn_calc_diagonal R NumR
    | KEuclid => @eu_calc_diagonal R NumR
    | KFiltered _ => fb_calc_diagonal (@zn_calc_diagonal R NumR)
    end.
End Kind.

(** Configuration and data (series [S], query [Q], subsequence length [m]) on which a generator is exact: finite data unless it is
    filtered; for Euclidean also no subsequences at a squared distance strictly between 0 and 1e-15 *)
Definition kind_ok (k : kind) : Prop := match k with KZnorm noise | KFiltered noise => (0 <= noise)%R | KEuclid => True end.
Definition all_finite (S : list (num R)) : Prop := forall x, In x S -> finite x = true.
Definition data_ok (k : kind) (m : nat) (S Q : list (num R)) : Prop :=
  match k with
  | KZnorm _ => all_finite S /\ all_finite Q
  | KEuclid => all_finite S /\ all_finite Q /\ separated m (map val S) (map val Q)
  | KFiltered _ => True
  end.

(** The channel of generator [id]; the distances it should calculate *)
Definition chan_of {X} (dims : list nat) (rows : list (list X)) (id : nat) : list X := nth (nth id dims 0) rows [].
Definition rows_or {X} (series : X) (query : option X) : X := match query with Some q => q | None => series end.
Definition matrix_of (k : kind) (m : nat) (dims : list nat) (series : list (list (num R))) (query : option (list (list (num R)))) (id r c : nat) : num R :=
  dist_or_inf (kdist k) (sub m (chan_of dims (rows_or series query) id) r) (sub m (chan_of dims series id) c).

(** Well-formed input on which the generators are exact; [dims]: the channels of the generators *)
Definition well_posed (k : kind) (m n nq : nat) (series : list (list (num R))) (query : option (list (list (num R)))) (buffer : option Z) (dims : list nat) : Prop :=
  proper_input m n nq series query buffer /\ series <> [] /\ kind_ok k /\
  (forall d, In d dims -> d < length series /\ data_ok k m (nth d series []) (nth d (rows_or series query) [])).

(** The surroundings: contents of fresh memory, scale factors of the buffers, iteration order of sets, the shuffle *)
Record world : Type := mkWorld {
  w_mem : nat -> num R; w_memb : nat -> bool; w_sf : Q; w_sf' : Q; w_set : list nat -> list nat; w_shuffle : list Z -> list Z
}.
Definition world_ok (e : world) : Prop :=
  (1 <= w_sf e)%Q /\ (1 <= w_sf' e)%Q /\ orders_sets (w_set e) /\ (forall l, Permutation (w_shuffle e l) l).
Definition kprogram (e : world) (k : kind) {C} (c_step : C -> event (num R) -> res C) :=
  program (kcol (w_mem e) k) (@kdiag k) (kprepare (w_mem e) (w_memb e) (w_sf e) (w_sf' e) k) c_step (w_set e) (w_shuffle e).

(** The parts [t] of the matrix can result from the calls. *)
Definition delivers {T} (query : option T) (m n nq : nat) (buffer : option Z) (calls : list acall) (t : list part) : Prop :=
  let h := nq + 1 - m in let w := n + 1 - m in
  exists order p, Permutation order (diagonals query (Z.of_nat m) buffer h w) /\ mixture h w order calls p /\ snd p = t.

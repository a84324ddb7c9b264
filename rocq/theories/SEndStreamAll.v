(** * SEndStreamAll: complete programs with a StreamingCalculator, any generators and any consumers *)
From Coq Require Import QArith Reals.
From Verif Require Import Np Mat MUtil SLog MCalc SReal SCalc SStream SGen SFilter SMixed SEnd SEndAll SEndStream MEuclid MZnorm MFilter MCache.
Set Implicit Arguments.
Open Scope nat_scope.

(** ** The program: a StreamingCalculator for [ndim] channels; one generator per element of [dims], which is its channel; the
    consumers, each with the numbers of its generators and its [initialise]; then the given calls.  The result is the state of the
    consumers. *)
Section Program.
  Context {A : Type} {NA : NumOps A}.
  Notation num := (Np.num A).
  Variables (X G C : Type).
  Variable g_col : G -> nat -> res (G * list num).
  Variable g_app_s g_app_q : G -> list X -> res G.
  Variable prepare : Z -> Z -> option Z -> res G.
  Variable c_step : C -> event num -> res C.
  Variable set_order : list nat -> list nat.

  Definition streaming_program (m W : Z) (qw : option Z) (ndim : nat) (buffer : option Z) (dims : list Z)
      (consumers : list (list nat * (nat -> Z -> Z -> res C))) (ops : list (sop X)) : res (list C) :=
    do t <- stm_new G C m W qw ndim buffer;
    do t <- foldM (stm_add_generator prepare) dims t;
    do s <- foldM (fun s c => add_consumer s (fst c) (snd c)) consumers (st_calc t);
    do t <- foldM (stm_call g_col g_app_s g_app_q c_step set_order) ops (mkStm s (st_sp t) (st_qp t));
    Ok (map fst (ca_cons (st_calc t))).
End Program.

(** ** The distance matrix of the complete streams: entry (r, a) for channel [d], after what happened [H] *)
Definition stream_entry {A X} (E : list X -> list X -> Np.num A) (self : bool) (m d : nat) (H : list (hop X)) (r a : nat) : Np.num A :=
  E (sub m (if self then stream_of d H else query_stream d H) r) (sub m (stream_of d H) a).
(** Row [r] of column [a] was calculated *)
Definition was_calculated (cells : list (nat * nat * nat)) (a r : nat) : Prop := exists lo n, In (a, lo, n) cells /\ lo <= r < lo + n.

(** ** The generators: ZNormEuclidean, Euclidean, and FilterGenerator(ZNormEuclidean) with the default validity function *)
Definition sstate (k : kind) : Type := match k with KZnorm _ => @zn R | KEuclid => @cache R | KFiltered _ => fstream (@zn R) end.
Section Kind.
  Variables (mem : nat -> num R) (memb memb' : nat -> bool) (sf sf' : Q).
  Definition sprepare (k : kind) : Z -> Z -> option Z -> res (sstate k) :=
    match k with
    | KZnorm noise => fun m W qw => zn_prepare_streaming mem memb (Fin noise) sf (Z.to_nat m) (Z.to_nat W) (option_map Z.to_nat qw)
    | KEuclid => fun m W qw => eu_prepare_streaming mem sf (Z.to_nat m) (Z.to_nat W) (option_map Z.to_nat qw)
    | KFiltered noise => fun m W qw => fs_prepare memb' (zn_prepare_streaming mem memb (Fin noise) sf) sf' (Z.to_nat m) (Z.to_nat W) (option_map Z.to_nat qw)
    end.
  Definition scol (k : kind) : sstate k -> nat -> res (sstate k * list (num R)) :=
    match k with
    | KZnorm _ => zn_calc_column mem
    | KEuclid => eu_calc_column mem
    | KFiltered _ => fs_calc_column (zn_calc_column mem)
    end.
  Definition sappend_series (k : kind) : sstate k -> list (num R) -> res (sstate k) :=
    match k with
    | KZnorm _ => @zn_append_series R NumR
    | KEuclid => @eu_append_series R
    | KFiltered _ => fs_append_series (@zn_append_series R NumR) (@is_not_finite R)
    end.
  Definition sappend_query (k : kind) : sstate k -> list (num R) -> res (sstate k) :=
    match k with
    | KZnorm _ => @zn_append_query R NumR
    | KEuclid => @eu_append_query R
    | KFiltered _ => fs_append_query (@zn_append_query R NumR) (@is_not_finite R)
    end.
End Kind.

(** Data for which a generator is exact: finite points unless it is filtered; for Euclidean multiples of a quantum [u] of which the
    square is at least 1e-15; for the filter at least one point *)
Definition stream_data (k : kind) (u : R) (xs : list (num R)) : Prop :=
  match k with
  | KZnorm _ => all_finite xs
  | KEuclid => forall x, In x xs -> exists z, x = Fin (IZR z * u)%R
  | KFiltered _ => xs <> []
  end.
Definition quantum_ok (k : kind) (u : R) : Prop := match k with KEuclid => (/ 10 ^ 15 <= u * u)%R | _ => True end.

(** The surroundings: contents of fresh memory, scale factors of the buffers, iteration order of sets *)
Record surroundings : Type := mkSur { u_mem : nat -> num R; u_memb : nat -> bool; u_memb' : nat -> bool; u_sf : Q; u_sf' : Q; u_set : list nat -> list nat }.
Definition sur_ok (e : surroundings) : Prop :=
  (1 <= u_sf e)%Q /\ (u_sf e <= 2)%Q /\ (1 <= u_sf' e)%Q /\ (u_sf' e <= 2)%Q /\ orders_sets (u_set e).
Definition ksprogram (e : surroundings) (k : kind) {C} (c_step : C -> event (num R) -> res C) :=
  streaming_program (scol (u_mem e) k) (@sappend_series k) (@sappend_query k) (sprepare (u_mem e) (u_memb e) (u_memb' e) (u_sf e) (u_sf' e) k) c_step (u_set e).

(** Windows and buffer as the calculator requires them; [dims]: channels of the generators *)
Definition stream_posed (k : kind) (u : R) (m W : nat) (qw : option nat) (ndim : nat) (buffer : option Z) (dims : list nat) : Prop :=
  kind_ok k /\ quantum_ok k u /\ 1 <= m <= W /\ m <= match qw with Some q => q | None => W end /\ 0 < ndim /\
  (-1 <= buffer_used qw (Z.of_nat m) buffer < Z.of_nat (W + 1 - m))%Z /\ forall d, In d dims -> d < ndim.
(** Calls that can happen, with the events [evs ids] that a consumer of the generators [ids] should receive *)
Definition stream_history (k : kind) (u : R) (m W : nat) (qw : option nat) (ndim : nat) (buffer : option Z) (dims : list nat) :=
  let self := is_self qw in let Wq := match qw with Some q => q | None => W end in
  history self m W Wq ndim (buffer_used qw (Z.of_nat m) buffer) (fun id => nth id dims 0) (stream_data k u)
    (fun _ => window_column (dist_or_inf (kdist k)) self m W Wq).

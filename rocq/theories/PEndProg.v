(** * PEndProg: complete programs with several generators and consumers *)
From Coq Require Import QArith Reals Lra Permutation.
From Verif Require Import Np NpFacts Mat MUtil SLog PLog PSort PMulti MCalc SReal SCalc PCalc PCalcRun PCalcEnd SMixed PMixed SGen SFilter SEnd PArith PEnd SEndAll PEndAll PEndKind SEndCons PEndCons SMulti PEndMulti.
Set Implicit Arguments.
Open Scope nat_scope.

(** The distances are not NaN, not -inf, and symmetric in a self-join. *)
Lemma matrix_nan k m dims series query id r c : isnan (matrix_of k m dims series query id r c) = false.
Proof. unfold matrix_of, dist_or_inf. destruct (_ && _); reflexivity. Qed.
Lemma matrix_ninf k m dims series query id r c : matrix_of k m dims series query id r c <> NInf.
Proof. unfold matrix_of, dist_or_inf. destruct (_ && _); discriminate. Qed.
Lemma length_sub {X} m (S : list X) i n : length S = n -> i < n + 1 - m -> length (sub m S i) = m.
Proof. intros L H. unfold sub. rewrite firstn_length, skipn_length. lia. Qed.
Lemma matrix_sym k m n dims (series : list (list (num R))) id r c : rows_have n series -> (forall d, In d dims -> d < length series) -> id < length dims -> r < n + 1 - m -> c < n + 1 - m ->
  matrix_of k m dims series None id r c = matrix_of k m dims series None id c r.
Proof.
  intros HR Hd Hid Hr Hc. unfold matrix_of. cbn [rows_or]. set (S := chan_of dims series id). assert (L : length S = n) by (unfold S, chan_of; apply HR, nth_In, Hd, nth_In, Hid).
  apply dist_or_inf_sym; [|rewrite !(length_sub _ _ L) by assumption; reflexivity]. intro E. apply kdist_sym. rewrite !map_length. exact E.
Qed.

(** The distances are not negative. *)
Lemma kdist_pos k x y : (0 <= kdist k x y)%R.
Proof. destruct k; cbn [kdist]; unfold zdist, euclid; try destruct (Rltb _ _); try apply sqrt_pos; lra. Qed.
Lemma matrix_pos k m dims series query id r c : fltb (matrix_of k m dims series query id r c) (Fin 0%R) = false.
Proof. unfold matrix_of, dist_or_inf. destruct (_ && _); [|reflexivity]. cbn [fltb nltb NumR]. apply Rltb_false, kdist_pos. Qed.
#[export] Instance AvgR : AvgLaws R.
Proof.
  constructor; cbn [nltb nadd ndiv nofZ nzero NumR]; intros; rewrite Rltb_false in *.
  - assert (0 < / IZR (Z.of_nat k + 1))%R by (apply Rinv_0_lt_compat, IZR_lt; lia). unfold Rdiv. nra.
  - lra.
Qed.

(** Calls of one kind *)
Lemma only_diags h w order calls p : Forall diags_call calls -> mixture h w order calls p -> cols_in (snd p) = [].
Proof.
  intros Hc H. induction H as [|calls call p p' _ IH Hs]; [reflexivity|]. apply Forall_app in Hc. destruct Hc as [Hc Hc1]. apply Forall_inv in Hc1. specialize (IH Hc).
  inversion Hs as [intr start upto last t c u n _ _ _ E|intr partial last t v new rest]; subst; [destruct Hc1|]. cbn [snd] in *. rewrite cols_snoc, IH. reflexivity.
Qed.
Lemma only_cols h w order calls p : Forall cols_call calls -> mixture h w order calls p -> diags_in (snd p) = [].
Proof.
  intros Hc H. induction H as [|calls call p p' _ IH Hs]; [reflexivity|]. apply Forall_app in Hc. destruct Hc as [Hc Hc1]. apply Forall_inv in Hc1. specialize (IH Hc).
  inversion Hs as [intr start upto last t c u n _ _ _ E|intr partial last t v new rest]; subst; [|destruct Hc1]. cbn [snd] in *. rewrite diags_snoc, IH. reflexivity.
Qed.
Lemma diags_prefix h w order calls p : mixture h w order calls p -> exists rest, order = diags_in (snd p) ++ rest.
Proof.
  induction 1 as [|calls call p p' _ (rest0 & IH) Hs]; [exists order; reflexivity|].
  inversion Hs as [intr start upto last t c u n|intr partial last t v new rest _ Ho]; subst p p'; cbn [snd] in *; rewrite diags_snoc; cbn [diags_in flat_map]; rewrite app_nil_r; [exists rest0; exact IH|exists rest; rewrite <- app_assoc; exact Ho].
Qed.
Lemma nodup_pyrange a b : NoDup (pyrange a b).
Proof. unfold pyrange. apply FinFun.Injective_map_NoDup; [|apply seq_NoDup]. intros x y E. lia. Qed.
Lemma diags_once {T} h w order calls p (query : option T) m buffer : Permutation order (diagonals query m buffer h w) -> mixture h w order calls p -> NoDup (diags_in (snd p)).
Proof.
  intros HP HM. destruct (diags_prefix HM) as (rest & E). assert (N : NoDup order) by (eapply Permutation_NoDup; [symmetry; exact HP|]; unfold diagonals; destruct query; apply nodup_pyrange). rewrite E in N. clear - N. induction (diags_in (snd p)) as [|d l IH]; [constructor|]. cbn [app] in N. inversion N as [|x y Hx Hy]; subst. constructor; [intro C; apply Hx, in_app_iff; auto|apply IH, Hy].
Qed.

(** Calls for columns after other calls *)
Lemma mixture_split h w order calls1 calls2 p : Forall cols_call calls2 -> mixture h w order (calls1 ++ calls2) p -> exists p1 t2, mixture h w order calls1 p1 /\ snd p = snd p1 ++ t2 /\ diags_in t2 = [].
Proof.
  revert p. induction calls2 as [|call calls2 IH] using rev_ind; intros p Hc H.
  - rewrite app_nil_r in H. exists p, []. rewrite app_nil_r. auto.
  - apply Forall_app in Hc. destruct Hc as [Hc Hc1]. apply Forall_inv in Hc1. rewrite app_assoc in H. inversion H as [E|calls call' p0 p' H0 Hs E]; [destruct (app_cons_not_nil _ _ _ E)|]. apply app_inj_tail in E. destruct E as [-> ->]. subst p'.
    destruct (IH p0 Hc H0) as (p1 & t2 & M & E & Hd). inversion Hs as [intr start upto last t c u n _ _ _ Ec|intr partial last t v new rest]; subst; [|destruct Hc1].
    cbn [snd] in *. exists p1, (t2 ++ [PCols c n]). split; [exact M|]. split; [rewrite E, app_assoc; reflexivity|]. rewrite diags_snoc, Hd. reflexivity.
Qed.

Section Kind.
  Variables (e : world) (k : kind) (m n nq : nat) (series : list (list (num R))) (query : option (list (list (num R)))) (buffer : option Z) (dims : list nat).
  Hypothesis HE : world_ok e.
  Hypothesis HW : well_posed k m n nq series query buffer dims.
  Notation h := (nq + 1 - m).
  Notation w := (n + 1 - m).
  Notation b := (buffer_used query (Z.of_nat m) buffer).
  Notation D := (matrix_of k m dims series query).

  Lemma pos_h : 0 < h.
  Proof. destruct HW as ((H1 & H2 & H3 & _) & _). lia. Qed.
  Lemma pos_w : 0 < w.
  Proof. destruct HW as ((H1 & H2 & H3 & _) & _). lia. Qed.
  Lemma Dnan id : forall r c, r < h -> c < w -> isnan (D id r c) = false.
  Proof. intros. apply matrix_nan. Qed.
  Lemma Dself id : id < length dims -> is_self query = true -> h = w /\ forall r c, r < h -> c < h -> D id r c = D id c r.
  Proof.
    destruct HW as ((_ & _ & _ & HR & Hq & _) & _ & _ & Hd). destruct query as [q|]; [discriminate|]. intros Hid _. subst nq. split; [reflexivity|]. intros r c Hr Hc. eapply matrix_sym; eauto. intros d Hin. apply Hd, Hin.
  Qed.
  Lemma delivers_fine calls t : delivers query m n nq buffer calls t -> fine (is_self query) h w b t.
  Proof.
    intros (order & p & HP & HM & <-). destruct (mixture_parts HM) as [P1 P2]. split; [exact P1|]. intros d Hd'. apply P2 in Hd'. apply (Permutation_in d HP) in Hd'. unfold diagonals in Hd'. apply in_pyrange in Hd'.
    destruct HW as ((H1 & H2 & H3 & _ & Hq & Hb) & _). unfold on_matrix. destruct query; cbn [buffer_used is_self] in *.
    - split; [lia|]. split; [lia|discriminate].
    - split; [lia|]. split; lia.
  Qed.

  Lemma kind_told C (c_step : C -> event (num R) -> res C) consumers calls :
    (forall ids init id, In (ids, init) consumers -> In id ids -> id < length dims) -> Forall sensible_call calls ->
    exists t, delivers query m n nq buffer calls t /\
      forall cns, kprogram e k c_step (Z.of_nat m) series query buffer (map Z.of_nat dims) consumers calls = Ok cns <->
        Forall2 (fun ci c => exists c0, snd ci (length (fst ci)) (Z.of_nat h) (Z.of_nat w) = Ok c0 /\ foldM c_step (told D h w (is_self query) b t (fst ci)) c0 = Ok c) consumers cns.
  Proof.
    intros Hids Hcalls. destruct HE as (Hsf & Hsf' & HSO & HSH). destruct HW as (HI & Hne & Hk & Hd). destruct (@kinds_give (w_mem e) (w_memb e) (w_sf e) (w_sf' e) k m n nq series query buffer dims HI Hsf Hsf' Hk Hd) as (gs & I & G1 & G2 & G3 & G4).
    destruct (@program_told R (num R) (kstate k) C (kcol (w_mem e) k) (@kdiag k) (kprepare (w_mem e) (w_memb e) (w_sf e) (w_sf' e) k) c_step (w_set e) (w_shuffle e) HSO HSH m n nq series query buffer dims consumers calls gs I D HI Hne G1 G2 G3 G4 Hids Hcalls) as (order & p & HP & HM & HT).
    exists (snd p). split; [exists order, p; auto|exact HT].
  Qed.

  (** Each consumer can be treated separately. *)
  Lemma all_post C (c_step : C -> event (num R) -> res C) consumers t (Post : list nat * (nat -> Z -> Z -> res C) -> C -> Prop) :
    (forall ci, In ci consumers -> exists c0 c, snd ci (length (fst ci)) (Z.of_nat h) (Z.of_nat w) = Ok c0 /\ foldM c_step (told D h w (is_self query) b t (fst ci)) c0 = Ok c /\ Post ci c) ->
    exists cns, Forall2 (fun ci c => exists c0, snd ci (length (fst ci)) (Z.of_nat h) (Z.of_nat w) = Ok c0 /\ foldM c_step (told D h w (is_self query) b t (fst ci)) c0 = Ok c) consumers cns /\ Forall2 Post consumers cns.
  Proof.
    clear HE HW. induction consumers as [|ci cis IH]; intro HP; [exists []; split; constructor|]. destruct IH as (cns & HF & HP'); [intros; apply HP; right; assumption|]. destruct (HP ci ltac:(left; reflexivity)) as (c0 & c & E0 & E & Hp). exists (c :: cns). split; constructor; eauto.
  Qed.
  Lemma kind_post C (c_step : C -> event (num R) -> res C) consumers calls (Post : list part -> list nat * (nat -> Z -> Z -> res C) -> C -> Prop) :
    (forall ids init id, In (ids, init) consumers -> In id ids -> id < length dims) -> Forall sensible_call calls ->
    (forall t ci, delivers query m n nq buffer calls t -> In ci consumers -> exists c0 c, snd ci (length (fst ci)) (Z.of_nat h) (Z.of_nat w) = Ok c0 /\ foldM c_step (told D h w (is_self query) b t (fst ci)) c0 = Ok c /\ Post t ci c) ->
    exists t cns, delivers query m n nq buffer calls t /\ kprogram e k c_step (Z.of_nat m) series query buffer (map Z.of_nat dims) consumers calls = Ok cns /\ Forall2 (Post t) consumers cns.
  Proof.
    intros Hids Hcalls HP. destruct (@kind_told C c_step consumers calls Hids Hcalls) as (t & Ht & HT). exists t.
    destruct (@all_post C c_step consumers t (Post t)) as (cns & HF & HP'); [intros; apply HP; assumption|]. exists cns. split; [exact Ht|]. split; [apply HT, HF|exact HP'].
  Qed.

  (** Consumers of one generator each, of the same class *)
  Lemma kind_each C (c_step : C -> event (num R) -> res C) (init : nat -> Z -> Z -> res C) ids calls (Post : list part -> nat -> C -> Prop) :
    (forall id, In id ids -> id < length dims) -> Forall sensible_call calls ->
    (forall t id, delivers query m n nq buffer calls t -> In id ids -> exists c0 c, init 1 (Z.of_nat h) (Z.of_nat w) = Ok c0 /\ foldM c_step (mixed_calls (fun _ => Dc h (D id)) (fun _ => Dd h w (D id)) (is_self query) b t [0]) c0 = Ok c /\ Post t id c) ->
    exists t cns, delivers query m n nq buffer calls t /\ kprogram e k c_step (Z.of_nat m) series query buffer (map Z.of_nat dims) (map (fun id => ([id], init)) ids) calls = Ok cns /\ Forall2 (Post t) ids cns.
  Proof.
    intros Hids Hcalls HP. destruct (@kind_post C c_step (map (fun id => ([id], init)) ids) calls (fun t ci c => match fst ci with [id] => Post t id c | _ => False end)) as (t & cns & H1 & H2 & H3); [|exact Hcalls| |].
    - intros is' i id Hin Hi. apply in_map_iff in Hin. destruct Hin as (id' & E & Hin). injection E as <- <-. destruct Hi as [<-|[]]. auto.
    - intros t ci Ht Hin. apply in_map_iff in Hin. destruct Hin as (id & <- & Hin). exact (HP t id Ht Hin).
    - exists t, cns. split; [exact H1|]. split; [exact H2|]. clear - H3. remember (map _ ids) as cis eqn:E. revert ids E. induction H3 as [|ci c cis cns H H3 IH]; intros [|id ids] E; try discriminate; [constructor|]. injection E as -> ->. constructor; [exact H|apply IH; reflexivity].
  Qed.

  (** Completeness *)
  Lemma completes_complete calls t : delivers query m n nq buffer calls t -> completes calls -> complete query (Z.of_nat m) buffer h w t.
  Proof.
    intros (order & p & HP & HM & <-) [(calls' & ->)|(calls' & -> & Hcont)].
    - right. intros d Hd. rewrite (@diags_complete h w order pos_h pos_w) with (2 := HM).
      + eapply Permutation_in; [symmetry; exact HP|exact Hd].
      + intros d' Hd'. apply (Permutation_in d' HP) in Hd'. unfold diagonals in Hd'. apply in_pyrange in Hd'. destruct HW as ((H1 & H2 & H3 & _ & Hq & Hb) & _). unfold on_matrix. destruct query; cbn [buffer_used] in *; lia.
    - left. eapply cols_complete; eassumption.
  Qed.
  Lemma complete_cell calls t r j : delivers query m n nq buffer calls t -> complete query (Z.of_nat m) buffer h w t -> r < h -> j < w -> (SEnd.given (is_self query) b t r j <-> ~ trivial b r j).
  Proof.
    intros Ht Hc Hr Hj. destruct HW as ((H1 & H2 & H3 & _ & Hq & Hb) & _). unfold trivial. split.
    - intros [Hf _]. unfold far in Hf. cbn [fst snd] in Hf. apply Z.ltb_lt in Hf. lia.
    - intro Hn. apply (@complete_given (num R) query (Z.of_nat m) buffer h w t r j); auto; try lia; [intros ->; rewrite Hq; reflexivity|]. unfold far. cbn [fst snd]. apply Z.ltb_lt. lia.
  Qed.
End Kind.

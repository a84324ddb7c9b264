(** * PropProgress: the progress output of the calculators *)
From Coq Require Import QArith Qround Lqa Permutation.
From Verif Require Import Np NpFacts Mat MUtil SLog MCalc SCalc SMixed PCalc PCalcRun MProgress Inst PropCalc.
Set Implicit Arguments.
Open Scope nat_scope.

Lemma pydiv_ok a b : (0 < b)%Z -> pydiv a (inject_Z b) = Ok (a / inject_Z b)%Q.
Proof. intro H. unfold pydiv. destruct (Qeq_bool (inject_Z b) 0) eqn:E; [|reflexivity]. apply Qeq_bool_eq in E. unfold Qeq in E. cbn in E. lia. Qed.

Section Columns.
  Context {A : Type}.
  Notation num := (Np.num A).
  Variables (G C : Type).
  Variable g_col : G -> nat -> res (G * list num).
  Variable c_step : C -> event num -> res C.
  Variable set_order : list nat -> list nat.

  Definition col_line (start upto : Z) (clock : nat -> Q) (k i : nat) (c : Z) : Q * Q :=
    (inject_Z (c + Z.of_nat i + 1 - start) / inject_Z (upto + 1 - start) * 100,
     clock (k + i)%nat / inject_Z (c + Z.of_nat i + 1 - start) * inject_Z (upto + 1 - (c + Z.of_nat i + 1)))%Q.

  Lemma col_loop_p_ok print ids rows start upto intr clock : forall fuel k c st, (start <= c)%Z ->
    match col_loop g_col c_step fuel intr k ids rows c upto st with
    | Err e => col_loop_p g_col c_step print fuel intr clock k ids rows start c upto st = Err e
    | Ok r => exists n, (Z.of_nat n <= Z.max 0 (upto - c))%Z /\ (forall i, i < n -> intr (k + i)%nat = false) /\ (Z.of_nat n = Z.max 0 (upto - c)%Z \/ intr (k + n)%nat = true) /\
        col_loop_p g_col c_step print fuel intr clock k ids rows start c upto st = Ok (r, if print then map (fun i => col_line start upto clock k i c) (seq 0 n) else [])
    end.
  Proof.
    induction fuel as [|fuel IH]; intros k c st Hc; cbn [col_loop col_loop_p]; [reflexivity|].
    destruct (c <? upto)%Z eqn:Ec; cbn [andb].
    - apply Z.ltb_lt in Ec. destruct (intr k) eqn:Ei; cbn [negb].
      + exists 0. split; [lia|]. split; [intros i Hi; lia|]. rewrite Nat.add_0_r. split; [right; exact Ei|]. destruct print; reflexivity.
      + destruct (col_step g_col c_step ids rows st c) as [st'|e]; cbn [bind]; [|reflexivity]. specialize (IH (S k) (c + 1)%Z st' ltac:(lia)).
        assert (P : col_progress start upto (c + 1) (clock k) = Ok (col_line start upto clock k 0 c)).
        { unfold col_progress, col_line. rewrite !pydiv_ok by lia. cbn [bind]. rewrite Nat.add_0_r, Z.add_0_r. reflexivity. }
        destruct (col_loop g_col c_step fuel intr (S k) ids rows (c + 1) upto st') as [r|e].
        * destruct IH as (n & H1 & H2 & H3 & E). exists (S n). split; [lia|]. split; [|split].
          -- intros [|i] Hi; [rewrite Nat.add_0_r; exact Ei|]. rewrite Nat.add_succ_r. apply (H2 i). lia.
          -- rewrite Nat.add_succ_r. destruct H3 as [H3|H3]; [left; lia|right; exact H3].
          -- rewrite E. destruct print; cbn [bind fst snd app]; [rewrite P|reflexivity]. cbn [bind app seq map]. rewrite <- seq_shift, map_map. do 3 f_equal.
             apply map_ext. intro i. unfold col_line. rewrite Nat.add_succ_r. replace (c + 1 + Z.of_nat i)%Z with (c + Z.of_nat (S i))%Z by lia. reflexivity.
        * rewrite IH. destruct print; cbn [bind]; [rewrite P|]; reflexivity.
    - apply Z.ltb_ge in Ec. exists 0. split; [lia|]. split; [intros i Hi; lia|]. split; [left; lia|]. destruct print; reflexivity.
  Qed.

  (** C73. Printing does not change the calculation of columns and never raises. *)
  Theorem C73_columns_same : forall print cols rows intr clock (s : calc G C) start upto,
    bind (calculate_columns_p g_col c_step set_order print cols rows intr clock s start upto) (fun r => Ok (fst r)) = calculate_columns g_col c_step set_order cols rows intr s start upto.
  Proof.
    intros. unfold calculate_columns_p, calculate_columns. destruct (ratio_to_int _ (ca_ns s) cols) as [c|e]; cbn [bind]; [|reflexivity]. destruct (ratio_to_int upto _ _) as [u|e]; cbn [bind]; [|reflexivity].
    destruct (rows <? 0)%Z; [reflexivity|]. match goal with |- context [col_loop g_col c_step ?f intr 0 ?ids ?r c u ?st] => pose proof (@col_loop_p_ok print ids r c u intr clock f 0 c st (Z.le_refl c)) as H; destruct (col_loop g_col c_step f intr 0 ids r c u st) as [x|e] end.
    - destruct H as (n & _ & _ & _ & E). rewrite E. reflexivity.
    - rewrite H. reflexivity.
  Qed.

  (** One line per column; the k-th says 100 k / (n + 1) percent of [n] columns: growing, and always below 100. *)
  Theorem C73_columns_partial : forall cols rows intr clock (s s' : calc G C) start upto out,
    calculate_columns_p g_col c_step set_order true cols rows intr clock s start upto = Ok (s', out) ->
    exists c u, ratio_to_int (match start with None => RInt (ca_last s + 1) | Some r => r end) (ca_ns s) cols = Ok c /\ ratio_to_int upto (ca_ns s) cols = Ok u /\
      runs intr (length out) (Z.to_nat (u - c)) /\
      forall i p t, nth_error out i = Some (p, t) -> (p == 100 * inject_Z (Z.of_nat i + 1) / inject_Z (u - c + 1) /\ 0 < p < 100)%Q.
  Proof.
    intros cols rows intr clock s s' start upto out E. unfold calculate_columns_p in E. destruct (ratio_to_int (match start with None => _ | Some _ => _ end) _ _) as [c|e] eqn:E1; cbn [bind] in E; [|discriminate]. destruct (ratio_to_int upto _ _) as [u|e] eqn:E2; cbn [bind] in E; [|discriminate].
    exists c, u. split; [reflexivity|]. split; [reflexivity|]. destruct (rows <? 0)%Z; [discriminate|].
    match type of E with context [col_loop_p _ _ _ ?f intr clock 0 ?ids ?r c c u ?st] => pose proof (@col_loop_p_ok true ids r c u intr clock f 0 c st (Z.le_refl c)) as H; destruct (col_loop g_col c_step f intr 0 ids r c u st) as [x|e] end; [|rewrite H in E; discriminate].
    destruct H as (n & H1 & H2 & H3 & El). rewrite El in E. cbn [bind fst snd] in E. injection E as _ <-. rewrite map_length, seq_length. split.
    - split; [lia|]. split; [exact H2|]. intro Hn. destruct H3 as [H3|H3]; [lia|exact H3].
    - intros i p t Hi. rewrite nth_error_map in Hi. destruct (nth_error (seq 0 n) i) as [j|] eqn:Ej; [|discriminate]. assert (Hin : i < n) by (rewrite nth_error_seq in Ej; destruct (Nat.ltb_spec i n); [assumption|discriminate]).
      assert (j = i) as -> by (rewrite nth_error_seq in Ej; destruct (i <? n); [injection Ej; auto|discriminate]). cbn in Hi. injection Hi as <- _.
      replace (c + Z.of_nat i + 1 - c)%Z with (Z.of_nat i + 1)%Z by lia. replace (u + 1 - c)%Z with (u - c + 1)%Z by lia.
      assert (P : (0 < inject_Z (u - c + 1))%Q) by (unfold Qlt; cbn; lia). assert (P2 : (0 < inject_Z (Z.of_nat i + 1))%Q) by (unfold Qlt; cbn; lia). assert (P3 : (inject_Z (Z.of_nat i + 1) < inject_Z (u - c + 1))%Q) by (rewrite <- Zlt_Qlt; lia).
      split; [field; intro N; rewrite N in P; discriminate|]. assert (B : (0 < inject_Z (Z.of_nat i + 1) / inject_Z (u - c + 1) < 1)%Q).
      { split; [apply Qlt_shift_div_l; [exact P|]; rewrite Qmult_0_l; exact P2|apply Qlt_shift_div_r; [exact P|]; rewrite Qmult_1_l; exact P3]. } split; lra.
  Qed.
End Columns.

Section Diagonals.
  Context {A : Type}.
  Notation num := (Np.num A).
  Variables (X G C : Type).
  Variable g_col : G -> nat -> res (G * list num).
  Variable g_diag : G -> Z -> res (G * list num).
  Variable c_step : C -> event num -> res C.
  Variable set_order : list nat -> list nat.
  Notation any := (any X G C).

  Definition sound (a : any) : Prop :=
    (forall d, In d (an_order a) -> (0 < diag_length (ca_nq (an_calc a)) (ca_ns (an_calc a)) d)%Z) /\ an_done a = done_after a (an_next a) /\ an_total a = done_after a (length (an_order a)).

  Lemma sum_firstn (f : Z -> Z) l : (forall d, In d l -> (0 < f d)%Z) -> forall k, (0 <= sumz (map f (firstn k l)) <= sumz (map f (firstn (length l) l)))%Z.
  Proof.
    clear. induction l as [|x l IH]; intros H [|k]; cbn [firstn map length sumz fold_right]; try lia.
    - fold (sumz (map f (firstn (length l) l))). specialize (IH (fun d Hd => H d (or_intror Hd)) 0). pose proof (H x (or_introl eq_refl)). cbn in IH. lia.
    - fold (sumz (map f (firstn k l))) (sumz (map f (firstn (length l) l))). specialize (IH (fun d Hd => H d (or_intror Hd)) k). pose proof (H x (or_introl eq_refl)). lia.
  Qed.
  Lemma sound_range a : sound a -> (0 <= an_done a <= an_total a)%Z.
  Proof. intros (H1 & -> & ->). apply sum_firstn. exact H1. Qed.

  Lemma step_sound ids st st' : sound (fst st) -> diag_step g_diag c_step ids st = Ok st' -> sound (fst st') /\ an_total (fst st') = an_total (fst st) /\ (an_done (fst st) < an_done (fst st'))%Z.
  Proof.
    intros (H1 & H2 & H3) E. unfold diag_step in E. apply bind_ok in E. destruct E as (d & Ed & E). apply bind_ok in E. destruct E as (gd & _ & E). apply bind_ok in E. destruct E as (cns & _ & E). injection E as <-. cbn [fst].
    assert (Hd : nth_error (an_order (fst st)) (an_next (fst st)) = Some d) by (unfold getitem in Ed; destruct (nth_error _ _); [congruence|discriminate]).
    pose proof (H1 d (nth_error_In _ _ Hd)). split; [|split; [reflexivity|cbn [an_done]; lia]]. split; [exact H1|]. cbn [an_done an_next an_total an_order]. split; [|exact H3].
    rewrite H2. symmetry. exact (@done_S X G C (fst st) (an_next (fst st)) d Hd).
  Qed.

  (** What a calculation from [done] to [done'] values prints: local percentages of [needed] and global percentages of [total], in growing order;
      a line is printed for every diagonal, and only while less than [needed] values were calculated. *)
  Fixpoint lines (needed total done done' : Z) (out : list (Q * Q * Q)) : Prop :=
    match out with
    | [] => done' = done
    | (l, t, g) :: out' => (done < needed)%Z /\ exists d, (done < d <= total)%Z /\ (l == 100 * inject_Z d / inject_Z needed)%Q /\ (g == 100 * inject_Z d / inject_Z total)%Q /\ lines needed total d done' out'
    end.

  Lemma diag_loop_p_ok print ids needed intr spent : forall fuel k time st, sound (fst st) -> (needed <= an_total (fst st))%Z ->
    match diag_loop g_diag c_step fuel intr k ids needed st with
    | Err e => diag_loop_p g_diag c_step print fuel intr spent k ids needed time st = Err e
    | Ok r => sound (fst r) /\ exists time' out, diag_loop_p g_diag c_step print fuel intr spent k ids needed time st = Ok (r, time', if print then out else []) /\ lines needed (an_total (fst st)) (an_done (fst st)) (an_done (fst r)) out
    end.
  Proof.
    induction fuel as [|fuel IH]; intros k time st Hs Hn; cbn [diag_loop diag_loop_p]; [reflexivity|].
    destruct (an_done (fst st) <? needed)%Z eqn:Ec; cbn [andb]; [|split; [exact Hs|]; exists time, []; split; [destruct print; reflexivity|reflexivity]].
    destruct (negb (intr k)); [|split; [exact Hs|]; exists time, []; split; [destruct print; reflexivity|reflexivity]]. apply Z.ltb_lt in Ec.
    destruct (diag_step g_diag c_step ids st) as [st'|e] eqn:Es; cbn [bind]; [|reflexivity]. destruct (step_sound _ _ Hs Es) as (Hs' & Et & Hd). pose proof (sound_range Hs) as R1. pose proof (sound_range Hs') as R2.
    specialize (IH (S k) (time + spent k)%Q st' Hs' ltac:(lia)).
    assert (P : exists t, diag_progress (an_done (fst st')) needed (an_total (fst st')) (time + spent k) = Ok (inject_Z (an_done (fst st')) / inject_Z needed * 100, t, inject_Z (an_done (fst st')) / inject_Z (an_total (fst st')) * 100)%Q).
    { unfold diag_progress. rewrite !pydiv_ok by lia. cbn [bind]. eexists. reflexivity. }
    destruct P as (t & P). destruct (diag_loop g_diag c_step fuel intr (S k) ids needed st') as [r|e].
    - destruct IH as (Hr & time' & out & E & L). split; [exact Hr|]. rewrite E, P. exists time'. eexists (_ :: out). split; [destruct print; cbn [bind fst snd app]; reflexivity|]. rewrite Et in *.
      assert (P1 : ~ (inject_Z needed == 0)%Q) by (intro N; unfold Qeq in N; cbn in N; lia). assert (P2 : ~ (inject_Z (an_total (fst st)) == 0)%Q) by (intro N; unfold Qeq in N; cbn in N; lia).
      cbn [lines]. split; [lia|]. exists (an_done (fst st')). split; [lia|]. split; [field; exact P1|]. split; [field; exact P2|exact L].
    - rewrite IH, P. destruct print; reflexivity.
  Qed.

  Lemma built_sound shuffle m series query buffer h w (a0 : any) gens cs : built shuffle m series query buffer h w a0 -> sound (with_parts a0 gens cs).
  Proof.
    intros (HS & E & Hh & Hw & W1 & H1). assert (F : exists self b, fresh self h w b a0).
    { destruct query as [q|]; [destruct (@any_new_join X G C shuffle m series q buffer h w a0 HS E W1 H1) as [F _]; eauto|]. assert (h = w) by lia. subst h. destruct (@any_new_self X G C shuffle m series buffer w a0 HS E W1) as (_ & F & _). eauto. }
    destruct F as (self & b & F). assert (Sz : forall k, done_after (with_parts a0 gens cs) k = size h w (firstn k (an_order a0))).
    { intro k. unfold done_after, with_parts. cbn. rewrite (fr_ns F), (fr_nq F). unfold size, sumz. f_equal. apply map_ext_in. intros d Hd. apply dlen_length, (fr_order F). rewrite <- (firstn_skipn k (an_order a0)). apply in_or_app. left. exact Hd. }
    split; [|split].
    - cbn. intros d Hd. rewrite (fr_ns F), (fr_nq F), dlen_length by (apply (fr_order F), Hd). apply dlen_pos; auto. apply (fr_order F), Hd.
    - rewrite Sz. cbn. rewrite (fr_next F), (fr_done F). reflexivity.
    - rewrite Sz. cbn. rewrite firstn_all. apply (fr_total F).
  Qed.

  Lemma col_loop_conf ids rows upto intr : forall fuel k c st st', col_loop g_col c_step fuel intr k ids rows c upto st = Ok st' ->
    ca_nq (fst st') = ca_nq (fst st) /\ ca_ns (fst st') = ca_ns (fst st).
  Proof.
    induction fuel as [|fuel IH]; intros k c st st' E; cbn [col_loop] in E; [discriminate|]. destruct (_ && _); [|injection E as <-; auto].
    apply bind_ok in E. destruct E as (st1 & E1 & E). apply IH in E. unfold col_step in E1. apply bind_ok in E1. destruct E1 as (gd & _ & E1). apply bind_ok in E1. destruct E1 as (cns & _ & E1). injection E1 as <-. exact E.
  Qed.
  Lemma call_sound call (a a' : any) : sound a -> any_call g_col g_diag c_step set_order a call = Ok a' -> sound a'.
  Proof.
    intros Hs E. destruct call as [intr start upto|intr partial]; cbn [any_call] in E.
    - unfold any_columns in E. apply bind_ok in E. destruct E as (s & Es & E). injection E as <-. unfold calculate_columns in Es. apply bind_ok in Es. destruct Es as (c & _ & Es). apply bind_ok in Es. destruct Es as (u & _ & Es).
      destruct (_ <? 0)%Z; [discriminate|]. apply bind_ok in Es. destruct Es as (st & Es & E). injection E as <-. apply col_loop_conf in Es. cbn [fst] in Es. destruct Es as [E1 E2].
      destruct Hs as (H1 & H2 & H3). unfold sound, done_after in *. cbn [an_order an_calc an_next an_done an_total]. rewrite E1, E2. auto.
    - unfold calculate_diagonals in E. destruct (_ <? 0)%Z; [discriminate|]. apply bind_ok in E. destruct E as (v & Ev & E). apply bind_ok in E. destruct E as (st & Est & E). injection E as <-.
      assert (Hv : (v <= an_total a)%Z) by (unfold ratio_to_int in Ev; destruct partial as [z|[| |q|]|]; try discriminate; [injection Ev as <-; lia|destruct (_ || _); [discriminate|]; injection Ev as <-; lia]).
      match type of Est with diag_loop _ _ ?f intr 0 ?ids v ?st0 = _ => pose proof (@diag_loop_p_ok false ids v intr (fun _ => 0%Q) f 0 0%Q st0 Hs Hv) as H end. rewrite Est in H. apply H.
  Qed.
  Lemma calls_sound calls : forall a a' : any, sound a -> foldM (any_call g_col g_diag c_step set_order) calls a = Ok a' -> sound a'.
  Proof.
    induction calls as [|c calls IH]; intros a a' Hs E; cbn [foldM] in E; [injection E as <-; exact Hs|]. apply bind_ok in E. destruct E as (a1 & E1 & E). eapply IH; [|exact E]. eapply call_sound; eassumption.
  Qed.

  (** Printing does not change the calculation of diagonals and never raises, whatever was calculated before. *)
  Theorem C73_diagonals_same : forall shuffle m series query buffer h w (a0 a : any) gens cs calls print intr spent time partial,
    built shuffle m series query buffer h w a0 -> foldM (any_call g_col g_diag c_step set_order) calls (with_parts a0 gens cs) = Ok a ->
    bind (calculate_diagonals_p g_diag c_step set_order print intr spent time a partial) (fun r => Ok (fst (fst r))) = calculate_diagonals g_diag c_step set_order intr a partial.
  Proof.
    intros shuffle m series query buffer h w a0 a gens cs calls print intr spent time partial HB Ec. assert (Hs : sound a) by (eapply calls_sound; [|exact Ec]; eapply built_sound; exact HB).
    unfold calculate_diagonals_p, calculate_diagonals. destruct (_ <? 0)%Z; [reflexivity|]. destruct (ratio_to_int partial _ _) as [v|e] eqn:Ev; cbn [bind]; [|reflexivity].
    assert (Hv : (v <= an_total a)%Z) by (unfold ratio_to_int in Ev; destruct partial as [z|[| |q|]|]; try discriminate; [injection Ev as <-; lia|destruct (_ || _); [discriminate|]; injection Ev as <-; lia]).
    match goal with |- context [diag_loop _ _ ?f intr 0 ?ids v ?st0] => pose proof (@diag_loop_p_ok print ids v intr spent f 0 time st0 Hs Hv) as H; destruct (diag_loop g_diag c_step f intr 0 ids v st0) as [r|e] end.
    - destruct H as (_ & time' & out & E & _). rewrite E. reflexivity.
    - rewrite H. reflexivity.
  Qed.

  (** The lines: global percentages between 0 and 100; local ones are below 100 before the last line. *)
  Theorem C73_diagonals_partial : forall shuffle m series query buffer h w (a0 a a' : any) gens cs calls intr spent time time' partial out,
    built shuffle m series query buffer h w a0 -> foldM (any_call g_col g_diag c_step set_order) calls (with_parts a0 gens cs) = Ok a ->
    calculate_diagonals_p g_diag c_step set_order true intr spent time a partial = Ok (a', time', out) ->
    exists needed, ratio_to_int partial (an_total a) (an_total a) = Ok needed /\ lines needed (an_total a) (an_done a) (an_done a') out /\ (0 <= an_done a)%Z /\
      (forall i l t g, nth_error out i = Some (l, t, g) -> (0 < l /\ 0 < g <= 100)%Q /\ (S i < length out -> (l < 100)%Q)).
  Proof.
    intros shuffle m series query buffer h w a0 a a' gens cs calls intr spent time time' partial out HB Ec E. assert (Hs : sound a) by (eapply calls_sound; [|exact Ec]; eapply built_sound; exact HB).
    unfold calculate_diagonals_p in E. destruct (_ <? 0)%Z; [discriminate|]. destruct (ratio_to_int partial _ _) as [v|e] eqn:Ev; cbn [bind] in E; [|discriminate]. exists v. split; [reflexivity|].
    assert (Hv : (v <= an_total a)%Z) by (unfold ratio_to_int in Ev; destruct partial as [z|[| |q|]|]; try discriminate; [injection Ev as <-; lia|destruct (_ || _); [discriminate|]; injection Ev as <-; lia]).
    match type of E with context [diag_loop_p _ _ _ ?f intr spent 0 ?ids v time ?st0] => pose proof (@diag_loop_p_ok true ids v intr spent f 0 time st0 Hs Hv) as H; destruct (diag_loop g_diag c_step f intr 0 ids v st0) as [r|e] end; [|rewrite H in E; discriminate].
    destruct H as (_ & time1 & out1 & El & L). rewrite El in E. cbn [bind] in E. injection E as <- <- <-. cbn [fst] in L. split; [exact L|]. pose proof (sound_range Hs) as R. split; [lia|].
    assert (GG : forall o d0 d1, (0 <= d0)%Z -> lines v (an_total a) d0 d1 o -> forall i l t g, nth_error o i = Some (l, t, g) -> (0 < l /\ 0 < g <= 100)%Q /\ (S i < length o -> (l < 100)%Q)).
    { clear - Hv. induction o as [|[[l t] g] o IH]; intros d0 d1 Hd L i l' t' g' Hi; [destruct i; discriminate|]. cbn [lines] in L. destruct L as (L1 & d & L2 & L3 & L4 & L5).
      assert (Pv : (0 < inject_Z v)%Q) by (unfold Qlt; cbn; lia). assert (Pt : (0 < inject_Z (an_total a))%Q) by (unfold Qlt; cbn; lia). assert (Pd : (0 < inject_Z d)%Q) by (unfold Qlt; cbn; lia).
      destruct i as [|i]; [|cbn [length]; specialize (IH d d1 ltac:(lia) L5 i l' t' g' Hi); split; [apply IH|intro; apply IH; lia]]. cbn in Hi. injection Hi as <- <- <-. split; [split; [|split]|].
      - rewrite L3. apply Qlt_shift_div_l; [exact Pv|]. rewrite Qmult_0_l. lra.
      - rewrite L4. apply Qlt_shift_div_l; [exact Pt|]. rewrite Qmult_0_l. lra.
      - rewrite L4. apply Qle_shift_div_r; [exact Pt|]. assert (inject_Z d <= inject_Z (an_total a))%Q by (rewrite <- Zle_Qle; lia). lra.
      - cbn [length]. intro Hl. destruct o as [|[[l2 t2] g2] o]; [cbn in Hl; lia|]. destruct L5 as (L6 & _). rewrite L3. apply Qlt_shift_div_r; [exact Pv|]. assert (inject_Z d < inject_Z v)%Q by (rewrite <- Zlt_Qlt; lia). lra. }
    eapply GG; [|exact L]. lia.
  Qed.
End Diagonals.
Print Assumptions C73_columns_same.
Print Assumptions C73_columns_partial.
Print Assumptions C73_diagonals_same.
Print Assumptions C73_diagonals_partial.

(** A complete calculation of columns does not end at 100 percent, nor with no time left: the last of two lines says two thirds. *)
Theorem C73_columns_refuted : exists (s s' : calc unit (list (event (Np.num Z)))) out p t, calculate_columns_p (tab_col 2) rec_step dedup true 2 2 never (fun k => inject_Z (Z.of_nat k + 1)) s None (RFloat (Fin 1%Q)) = Ok (s', out) /\
  ca_last s = (-1)%Z /\ ca_last s' = (ca_ns s' - 1)%Z /\ out = [p; t] /\ (fst t == 200 # 3)%Q /\ ~ (fst t == 100)%Q /\ (snd t == 1)%Q.
Proof.
  exists (mkCalc false 1 1 2 2 (-1) [(tt, 0)] [([], [0])] (-1)). do 4 eexists. split; [vm_compute; reflexivity|]. repeat (split; [reflexivity|]). split; [intro H; discriminate|reflexivity].
Qed.
Print Assumptions C73_columns_refuted.
(** A calculation of diagonals can end above 100 percent, with negative time left. *)
Theorem C73_diagonals_refuted : exists (a a' : any Z unit (list (event (Np.num Z)))) time' l t g, built (fun l => l) 2 [[3; 4; 6; 1; 2]%Z] None (Some 1%Z) 4 4 a /\
  calculate_diagonals_p (tab_diag 4 4) rec_step dedup true never (fun _ => 1%Q) 0 (with_parts a [(tt, 0)] [([], [0])]) (RInt 1) = Ok (a', time', [(l, t, g)]) /\ (l == 200)%Q /\ (t == - (1 # 2))%Q /\ (g == 200 # 3)%Q.
Proof.
  eexists (get some_any (any_new unit (list (event (Np.num Z))) (fun l => l) 2 [[3; 4; 6; 1; 2]%Z] None (Some 1%Z))). do 5 eexists. split; [split; [intro; apply Permutation_refl|]; repeat split; cbn; lia|].
  split; [vm_compute; reflexivity|]. repeat split.
Qed.
Print Assumptions C73_diagonals_refuted.

Example C73_example : exists a' time' out, calculate_diagonals_p (tab_diag 4 4) rec_step dedup true never (fun _ => 1%Q) 0 (with_parts four [(tt, 0)] [([], [0])]) (RFloat (Fin 1%Q)) = Ok (a', time', out) /\
  map (fun x => (Qred (fst (fst x)), Qred (snd (fst x)), Qred (snd x))) out = [(100 # 3, 2, 100 # 3); (100, 0, 100)]%Q.
Proof. do 3 eexists. split; [vm_compute; reflexivity|reflexivity]. Qed.
Example C73_columns_example : exists s' out, calculate_columns_p (tab_col 2) rec_step dedup true 3 2 (fun k => k =? 2) (fun k => inject_Z (Z.of_nat k + 1)) (mkCalc false 1 1 3 2 (-1) [(tt, 0)] [([], [0])] (-1)) None (RFloat (Fin 1%Q)) = Ok (s', out) /\
  map (fun x => (Qred (fst x), Qred (snd x))) out = [(25, 3); (50, 2)]%Q /\ ca_last s' = 1%Z.
Proof. do 2 eexists. split; [vm_compute; reflexivity|]. split; reflexivity. Qed.

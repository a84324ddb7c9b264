(** * PInterrupt: proofs about catching interrupts *)
From Verif Require Import Np NpFacts MInterrupt SInterrupt.
Set Implicit Arguments.
Open Scope nat_scope.

Lemma snoc_split {T} (l a b : list T) e x : l ++ [e] = a ++ x :: b -> (b = [] /\ x = e /\ a = l) \/ (exists b', b = b' ++ [e] /\ l = a ++ x :: b').
Proof.
  destruct b as [|y b _] using rev_ind; intro H.
  - left. apply app_inj_tail in H. destruct H as [-> ->]. auto.
  - right. exists b. replace (a ++ x :: b ++ [y]) with ((a ++ x :: b) ++ [y]) in H by (rewrite <- app_assoc; reflexivity). apply app_inj_tail in H. destruct H as [-> ->]. auto.
Qed.
Lemma active_snoc l e : active (l ++ [e]) = active1 (active l) e.
Proof. unfold active. rewrite fold_left_app. reflexivity. Qed.
Lemma received_snoc n l e : received n (l ++ [e]) <-> received n l \/ (e = ESig /\ hd_error (active l) = Some n).
Proof.
  split.
  - intros (a & b & E & H). apply snoc_split in E. destruct E as [(-> & <- & ->)|(b' & -> & ->)]; [right; auto|left; exists a, b'; auto].
  - intros [(a & b & -> & H)|[-> H]]; [exists a, (b ++ [e]); split; [rewrite <- app_assoc; reflexivity|exact H]|exists l, []; auto].
Qed.
Lemma nested_snoc l e : nested (l ++ [e]) <-> nested l /\ forall n, e = ELeave n -> hd_error (active l) = Some n.
Proof.
  split.
  - intro H. split; [intros a n b ->; apply (H a n (b ++ [e])); rewrite <- app_assoc; reflexivity|]. intros n ->. apply (H l n []). reflexivity.
  - intros [H1 H2] a n b E. apply snoc_split in E. destruct E as [(-> & <- & ->)|(b' & -> & ->)]; [auto|eapply H1; reflexivity].
Qed.
Lemma answers_snoc l e : answers_right (l ++ [e]) <-> answers_right l /\ forall n v, e = EAnswer n v -> (v = true <-> received n l).
Proof.
  split.
  - intro H. split; [intros a n v b ->; apply (H a n v (b ++ [e])); rewrite <- app_assoc; reflexivity|]. intros n v ->. apply (H l n v []). reflexivity.
  - intros [H1 H2] a n v b E. apply snoc_split in E. destruct E as [(-> & <- & ->)|(b' & -> & ->)]; [auto|eapply H1; reflexivity].
Qed.
Lemma stops_snoc l e : never_stops (l ++ [e]) <-> never_stops l /\ (e = EStop -> active l = []).
Proof.
  split.
  - intro H. split; [intros a b ->; apply (H a (b ++ [e])); rewrite <- app_assoc; reflexivity|]. intros ->. apply (H l []). reflexivity.
  - intros [H1 H2] a b E. apply snoc_split in E. destruct E as [(-> & <- & ->)|(b' & -> & ->)]; [auto|eapply H1; reflexivity].
Qed.
Lemma given_app a b : given (a ++ b) = given a ++ given b.
Proof. unfold given. apply flat_map_app. Qed.

Section Proofs.
  Variables (sigint : nat -> bool) (user : nat -> nat -> option pyexn) (main : bool) (h0 : handler).
  Hypothesis Hh0 : h0 <> HForeign.
  Hypothesis Hset : forall k, h0 <> HSet k.
  Notation tick := (tick sigint user).
  Notation run := (run sigint user main).

  Record IInv (s : ist) : Prop := mkIInv {
    ii_handler : i_handler s = match active (i_log s) with [] => h0 | n :: _ => HSet n end;
    ii_bound : forall n, In n (active (i_log s)) -> n < length (i_cells s);
    ii_cells : forall n, nth n (i_cells s) false = true <-> received n (i_log s);
    ii_nested : nested (i_log s);
    ii_answers : answers_right (i_log s);
    ii_stops : never_stops (i_log s) }.

  Lemma nth_splice (l : list bool) n k : n < length l -> nth k (splice l n [true]) false = true <-> nth k l false = true \/ k = n.
  Proof.
    clear. intro H. pose proof (@nth_error_set1 bool l n true k H) as E. destruct (Nat.eqb_spec k n) as [->|Hn].
    - rewrite (nth_error_nth _ _ false E). tauto.
    - destruct (nth_error l k) as [v|] eqn:Ek.
      + rewrite (nth_error_nth _ _ false E), (nth_error_nth _ _ false Ek). tauto.
      + apply nth_error_None in E, Ek. rewrite !nth_overflow by assumption. tauto.
  Qed.

  (** Adding an event that is no signal *)
  Lemma inv_emit s h t cells e : IInv s -> e <> ESig -> cells = i_cells s \/ cells = i_cells s ++ [false] ->
    h = match active (i_log s ++ [e]) with [] => h0 | n :: _ => HSet n end ->
    (forall n, e = EEnter n -> n < length cells) -> (forall n, e = ELeave n -> hd_error (active (i_log s)) = Some n) ->
    (forall n v, e = EAnswer n v -> v = nth n (i_cells s) false) -> (e = EStop -> active (i_log s) = []) -> IInv (mkI h cells t (i_log s ++ [e])).
  Proof.
    clear. intros [I1 I2 I3 I4 I5 I6] Hs Hc Hh He Hl Ha Hst. assert (Lc : length (i_cells s) <= length cells) by (destruct Hc as [->| ->]; rewrite ?app_length; lia).
    split; cbn [i_handler i_cells i_log].
    - exact Hh.
    - intros n Hn. rewrite active_snoc in Hn. assert (Hn' : In n (active (i_log s)) \/ e = EEnter n). { destruct e; cbn [active1] in Hn; auto; [destruct Hn as [->|Hn]; auto|]. destruct (active (i_log s)); [destruct Hn|]. left. right. exact Hn. }
      destruct Hn' as [Hn'|Hn']; [specialize (I2 n Hn'); lia|auto].
    - intro n. rewrite received_snoc, <- I3. assert (Ec : nth n cells false = nth n (i_cells s) false).
      { destruct Hc as [->| ->]; [reflexivity|]. destruct (Nat.lt_ge_cases n (length (i_cells s))) as [H|H]; [apply app_nth1; exact H|]. rewrite app_nth2, (nth_overflow (i_cells s)) by exact H. destruct (n - length (i_cells s)) as [|[|]]; reflexivity. }
      rewrite Ec. tauto.
    - apply nested_snoc. auto.
    - apply answers_snoc. split; [exact I5|]. intros n v E. rewrite (Ha n v E). apply I3.
    - apply stops_snoc. auto.
  Qed.
  Lemma inv_sig s t cells : IInv s ->
    (match active (i_log s) with [] => cells = i_cells s | n :: _ => cells = splice (i_cells s) n [true] end) -> IInv (mkI (i_handler s) cells t (i_log s ++ [ESig])).
  Proof.
    clear. intros [I1 I2 I3 I4 I5 I6] Hc. assert (Lc : length cells = length (i_cells s)). { destruct (active (i_log s)) as [|n st] eqn:Ea; rewrite Hc; [reflexivity|]. apply length_set1. apply I2. left. reflexivity. }
    split; cbn [i_handler i_cells i_log].
    - rewrite active_snoc. exact I1.
    - intros n Hn. rewrite active_snoc in Hn. rewrite Lc. apply I2. exact Hn.
    - intro n. rewrite received_snoc, <- I3. destruct (active (i_log s)) as [|k st] eqn:Ea; rewrite Hc; cbn [hd_error].
      + split; [auto|]. intros [H|[_ H]]; [exact H|discriminate].
      + rewrite nth_splice by (apply I2; left; reflexivity). split; [intros [H|H]; [auto|right; subst; auto]|intros [H|[_ H]]; [auto|right; congruence]].
    - apply nested_snoc. split; [exact I4|discriminate].
    - apply answers_snoc. split; [exact I5|discriminate].
    - apply stops_snoc. split; [exact I6|discriminate].
  Qed.
  Lemma inv_time s t : IInv s -> IInv (mkI (i_handler s) (i_cells s) t (i_log s)).
  Proof. clear. intros [I1 I2 I3 I4 I5 I6]. split; assumption. Qed.

  (** Result of a piece of code *)
  Definition fine (s : ist) (o : outcome) (s' : ist) (ev : list event) : Prop :=
    IInv s' /\ i_log s' = i_log s ++ ev /\ active (i_log s') = active (i_log s) /\ (o = Killed -> active (i_log s) = []).

  Lemma tick_ok s : IInv s -> exists o s' ev, tick s = (o, s') /\ fine s o s' ev /\ i_handler s' = i_handler s /\ length (i_cells s') = length (i_cells s) /\ given ev = [] /\
    (o = Done \/ (active (i_log s) = [] /\ In EStop ev)).
  Proof.
    clear Hh0. intro I. pose proof I as [I1 I2 I3 I4 I5 I6]. unfold MInterrupt.tick. destruct (sigint (i_time s)).
    2: { exists Done, (mkI (i_handler s) (i_cells s) (i_time s + 1) (i_log s)), []. cbn [i_handler i_cells i_log]. split; [reflexivity|]. split; [|auto]. split; [apply inv_time; exact I|]. rewrite app_nil_r. cbn [i_log]. repeat split; discriminate. }
    destruct (active (i_log s)) as [|n st] eqn:Ea.
    - (* no catcher *)
      assert (Is : IInv (mkI (i_handler s) (i_cells s) (i_time s + 1) (i_log s ++ [ESig]))) by (apply inv_sig; [exact I|rewrite Ea; reflexivity]).
      assert (A1 : active (i_log s ++ [ESig]) = []) by (rewrite active_snoc; exact Ea).
      assert (It : IInv (mkI (i_handler s) (i_cells s) (i_time s + 1) ((i_log s ++ [ESig]) ++ [EStop]))).
      { apply (@inv_emit _ (i_handler s) (i_time s + 1) (i_cells s) EStop Is); try discriminate; cbn [i_log]; auto. rewrite active_snoc, A1. cbn [active1]. rewrite I1. reflexivity. }
      assert (Fs : fine s Done (mkI (i_handler s) (i_cells s) (i_time s + 1) (i_log s ++ [ESig])) [ESig]).
      { split; [exact Is|]. split; [reflexivity|]. split; [cbn [i_log]; rewrite Ea; exact A1|discriminate]. }
      assert (Ft : forall o, fine s o (mkI (i_handler s) (i_cells s) (i_time s + 1) ((i_log s ++ [ESig]) ++ [EStop])) [ESig; EStop]).
      { intro o. split; [exact It|]. cbn [i_log]. split; [rewrite <- app_assoc; reflexivity|]. split; [rewrite active_snoc, A1, Ea; reflexivity|auto]. }
      rewrite I1. destruct h0 as [| | | |k|k] eqn:Eh; unfold emit; cbn [i_handler i_cells i_log i_time].
      + eexists _, _, [ESig; EStop]. split; [reflexivity|]. rewrite <- I1. split; [apply Ft|]. repeat split; auto. right. split; [reflexivity|]. right. left. reflexivity.
      + eexists _, _, [ESig]. split; [reflexivity|]. rewrite <- I1. split; [exact Fs|]. repeat split; auto.
      + eexists _, _, [ESig; EStop]. split; [reflexivity|]. rewrite <- I1. split; [apply Ft|]. repeat split; auto. right. split; [reflexivity|]. right. left. reflexivity.
      + eexists _, _, [ESig]. split; [reflexivity|]. rewrite <- I1. split; [exact Fs|]. repeat split; auto.
      + destruct (Hset eq_refl).
      + destruct (user k (i_time s)) as [e|].
        * eexists _, _, [ESig; EStop]. split; [reflexivity|]. rewrite <- I1. split; [apply Ft|]. repeat split; auto. right. split; [reflexivity|]. right. left. reflexivity.
        * eexists _, _, [ESig]. split; [reflexivity|]. rewrite <- I1. split; [exact Fs|]. repeat split; auto.
    - rewrite I1. unfold emit. cbn [i_handler i_cells i_log i_time]. eexists _, _, [ESig]. split; [reflexivity|]. cbn [i_handler i_cells i_log].
      split; [|repeat split; auto; apply length_set1, I2; left; reflexivity]. split; [|split; [reflexivity|split; [cbn [i_log]; rewrite active_snoc; reflexivity|discriminate]]].
      rewrite <- I1. apply inv_sig; [exact I|]. rewrite Ea. reflexivity.
  Qed.

  Lemma fine_trans s o s1 ev s' ev' : fine s Done s1 ev -> fine s1 o s' ev' -> fine s o s' (ev ++ ev').
  Proof. clear. intros (A1 & A2 & A3 & A4) (B1 & B2 & B3 & B4). split; [exact B1|]. split; [rewrite B2, A2, app_assoc; reflexivity|]. split; [congruence|]. intro E. rewrite <- A3. auto. Qed.
  Lemma fine_trans' s e o s1 ev s' ev' : fine s (Exc e) s1 ev -> fine s1 o s' ev' -> fine s o s' (ev ++ ev').
  Proof. clear. intros (A1 & A2 & A3 & A4) (B1 & B2 & B3 & B4). split; [exact B1|]. split; [rewrite B2, A2, app_assoc; reflexivity|]. split; [congruence|]. intro E. rewrite <- A3. auto. Qed.
  Lemma fine_out s o o' s' ev : o' <> Killed -> fine s o s' ev -> fine s o' s' ev.
  Proof. clear. intros Hn (A1 & A2 & A3 & A4). split; [exact A1|]. split; [exact A2|]. split; [exact A3|]. intro E. contradiction. Qed.

  (** Result of a piece of code, with a property [P] of its events, outcome and final state if no signal ended it *)
  Definition okay (s : ist) (P : list event -> outcome -> ist -> Prop) (r : outcome * ist) : Prop :=
    exists ev, fine s (fst r) (snd r) ev /\ (main = true -> ~ In EStop ev -> P ev (fst r) (snd r)).
  Lemma tick_then s (P : list event -> outcome -> ist -> Prop) f : IInv s ->
    (forall s1 ev, fine s Done s1 ev -> i_handler s1 = i_handler s -> length (i_cells s1) = length (i_cells s) -> given ev = [] -> okay s1 (fun ev' => P (ev ++ ev')) (f s1)) ->
    okay s P (andthen (tick s) f).
  Proof.
    clear Hh0. intros I H. destruct (tick_ok I) as (o & s1 & ev & E & F & Hh & L & G & D). rewrite E. unfold andthen. cbn [fst snd].
    assert (St : In EStop ev -> okay s P (o, s1)) by (intro Hin; exists ev; split; [exact F|contradiction]).
    destruct D as [->|[_ D]]; [|destruct o; auto].
    - destruct (H s1 ev F Hh L G) as (ev' & F' & Hp). exists (ev ++ ev'). split; [eapply fine_trans; eassumption|]. intros Hm Hn. apply Hp; [exact Hm|]. intro Hin. apply Hn, in_or_app. right. exact Hin.
    - destruct (H s1 ev F Hh L G) as (ev' & F' & Hp). exists (ev ++ ev'). split; [eapply fine_trans; eassumption|]. intros Hm Hn. apply Hp; [exact Hm|]. intro Hin. apply Hn, in_or_app. right. exact Hin.
  Qed.
  Lemma fine_refl s o : IInv s -> o <> Killed -> fine s o s [].
  Proof. clear. intros I H. split; [exact I|]. split; [rewrite app_nil_r; reflexivity|]. split; [reflexivity|contradiction]. Qed.

  Lemma signal_ok s h : h <> HForeign -> signal_signal main s h = if main then (Done, set_handler s h) else (Exc PyValueError, s).
  Proof. clear. intro H. unfold signal_signal. destruct main; [|reflexivity]. destruct h; try reflexivity. contradiction. Qed.

  (** The program without signals and catchers *)
  Definition same (p : prog) (cells : nat) (ev : list event) (o : outcome) (s' : ist) : Prop := forall rest, plain p cells (given ev ++ rest) = (o, length (i_cells s'), rest).
  Definition good (p : prog) : Prop := forall s, IInv s -> okay s (same p (length (i_cells s))) (run p s).

  Lemma with_ok body : (forall n, good (body n)) -> forall s, IInv s ->
    okay s (same (body (length (i_cells s))) (length (i_cells s) + 1)) (run_with sigint user main (fun n => run (body n)) s).
  Proof.
    intros IH s I. unfold run_with. set (n := length (i_cells s)). set (s0 := mkI _ _ _ _).
    assert (I0 : IInv s0).
    { unfold s0. destruct I as [I1 I2 I3 I4 I5 I6]. split; cbn [i_handler i_cells i_log]; auto.
      - intros k Hk. rewrite app_length. specialize (I2 k Hk). cbn [length]. lia.
      - intro k. rewrite <- I3. destruct (Nat.lt_ge_cases k (length (i_cells s))) as [H|H]; [rewrite app_nth1 by exact H; tauto|].
        rewrite app_nth2, (nth_overflow (i_cells s)) by exact H. destruct (k - length (i_cells s)) as [|[|]]; cbn [nth]; tauto. }
    assert (L0 : length (i_cells s0) = n + 1) by (unfold s0; cbn [i_cells]; rewrite app_length; reflexivity).
    assert (W : forall P r, okay s0 P r -> okay s P r) by (intros P r H; exact H). apply W. clear W.
    apply tick_then; [exact I0|]. intros s1 e1 F1 H1 L1 G1. apply tick_then; [apply F1|]. intros s2 e2 F2 H2 L2 G2. cbv beta.
    rewrite signal_ok by discriminate. destruct main eqn:Em; [|exists []; unfold andthen; cbn [fst snd]; split; [apply fine_refl; [apply F2|discriminate]|intro Hm; congruence]].
    rewrite <- Em in *. unfold andthen at 1. cbn [fst snd]. set (s3 := emit (set_handler s2 (HSet n)) (EEnter n)).
    pose proof F2 as (I2 & _ & _ & _).
    assert (I3 : IInv s3).
    { apply (@inv_emit s2 (HSet n) (i_time s2) (i_cells s2) (EEnter n) I2); auto; try discriminate.
      - rewrite active_snoc. reflexivity.
      - intros k E. injection E as <-. lia. }
    assert (A3 : active (i_log s3) = n :: active (i_log s2)) by (unfold s3, emit; cbn [i_log set_handler]; rewrite active_snoc; reflexivity).
    destruct (tick_ok I3) as (o4 & s4 & e4 & E4 & F4 & H4 & L4 & G4 & D4). rewrite E4. unfold andthen at 1. cbn [fst snd].
    destruct D4 as [->|[D4 _]]; [|rewrite A3 in D4; discriminate].
    pose proof F4 as (I4 & _ & A4 & _). rewrite A3 in A4. destruct (IH n s4 I4) as (ev & F5 & P5). destruct (run (body n) s4) as [o5 s5] eqn:E5. cbn [fst snd] in *.
    pose proof F5 as (I5 & _ & A5 & K5). rewrite A4 in A5, K5.
    assert (Hk : o5 <> Killed) by (intro E; specialize (K5 E); discriminate).
    destruct (tick_ok I5) as (o6 & s6 & e6 & E6 & F6 & H6 & L6 & G6 & D6).
    destruct D6 as [->|[D6 _]]; [|rewrite A5 in D6; discriminate]. pose proof F6 as (I6 & _ & A6 & _). rewrite A5 in A6.
    assert (Ho : i_handler s1 = match active (i_log s2) with [] => h0 | k :: _ => HSet k end) by (rewrite <- H2; exact (ii_handler I2)).
    assert (Hf : i_handler s1 <> HForeign) by (rewrite Ho; destruct (active (i_log s2)); [exact Hh0|discriminate]).
    set (s7 := emit (set_handler s6 (i_handler s1)) (ELeave n)).
    assert (I7 : IInv s7).
    { apply (@inv_emit s6 (i_handler s1) (i_time s6) (i_cells s6) (ELeave n) I6); auto; try discriminate.
      - rewrite active_snoc, A6. exact Ho.
      - intros k E. injection E as <-. rewrite A6. reflexivity. }
    assert (A7 : active (i_log s7) = active (i_log s2)) by (unfold s7, emit; cbn [i_log set_handler]; rewrite active_snoc, A6; reflexivity).
    set (last := fun s : ist => (o5, s)).
    assert (Er : (match o5 with Killed => (o5, s5) | _ => andthen (tick s5) (fun s => andthen (signal_signal main s (i_handler s1)) (fun s => andthen (tick (emit s (ELeave n))) (fun s => (o5, s)))) end) = andthen (tick s7) last).
    { assert (Es : signal_signal main s6 (i_handler s1) = (Done, set_handler s6 (i_handler s1))) by (rewrite signal_ok by exact Hf; rewrite Em; reflexivity).
      assert (Eq : andthen (tick s5) (fun s => andthen (signal_signal main s (i_handler s1)) (fun s => andthen (tick (emit s (ELeave n))) (fun s => (o5, s)))) = andthen (tick s7) last).
      { rewrite E6. unfold andthen at 1. cbn [fst snd]. rewrite Es. reflexivity. }
      destruct o5; [exact Eq|exact Eq|contradiction]. }
    assert (Eo : okay s7 (fun ev' o s' => o = o5 /\ given ev' = [] /\ length (i_cells s') = length (i_cells s6)) (andthen (tick s7) last)).
    { apply tick_then; [exact I7|]. intros s8 e8 F8 H8 L8 G8. exists []. unfold last. cbn [fst snd]. split; [apply fine_refl; [apply F8|exact Hk]|]. intros _ _. rewrite app_nil_r. auto. }
    match goal with |- okay _ _ ?r => assert (Er' : r = andthen (tick s7) last) by (rewrite <- Er; destruct o5; reflexivity); rewrite Er' end.
    destruct Eo as (e8 & (I8 & B8 & A8 & K8) & P8). exists ([EEnter n] ++ e4 ++ ev ++ e6 ++ [ELeave n] ++ e8). split.
    - split; [exact I8|]. split.
      + rewrite B8.
        destruct F6 as (_ & B6 & _), F5 as (_ & B5 & _), F4 as (_ & B4 & _). unfold s7, emit. cbn [i_log set_handler]. rewrite B6, B5, B4. unfold s3, emit. cbn [i_log set_handler]. rewrite <- !app_assoc. reflexivity.
      + split; [congruence|]. intro E. rewrite <- A7. auto.
    - intros Hm Hn rest. rewrite !in_app_iff in Hn. destruct P8 as (-> & G8 & L8); [exact Hm|tauto|]. rewrite !given_app, G1, G2, G4, G6, G8. cbn [app given flat_map]. rewrite !app_nil_r.
      rewrite L8, L6. rewrite <- (P5 Hm) by tauto. f_equal. rewrite L4. unfold s3, emit. cbn [i_cells set_handler]. lia.
  Qed.

  Lemma run_ok p : good p.
  Proof.
    induction p as [|e|k IH|n k IH|body IH|p IHp h IHh|p IHp q IHq]; intros s I; cbn [MInterrupt.run]; (apply tick_then; [exact I|]); intros s1 e1 F1 H1 L1 G1; pose proof (proj1 F1) as I1; cbv beta.
    - exists []. split; [apply fine_refl; [exact I1|discriminate]|]. intros _ _ rest. rewrite app_nil_r, G1. cbn [plain fst snd app]. rewrite L1. reflexivity.
    - exists []. split; [apply fine_refl; [exact I1|discriminate]|]. intros _ _ rest. rewrite app_nil_r, G1. cbn [plain fst snd app]. rewrite L1. reflexivity.
    - destruct (IH s1 I1) as (ev & F & P). exists ev. split; [exact F|]. intros Hm Hn rest. rewrite given_app, G1. cbn [app plain]. rewrite <- L1. apply P; assumption.
    - set (b := nth n (i_cells s1) false). set (s2 := emit s1 (EAnswer n b)).
      assert (I2 : IInv s2). { apply (@inv_emit s1 (i_handler s1) (i_time s1) (i_cells s1) (EAnswer n b) I1); auto; try discriminate; [rewrite active_snoc; apply I1|]. intros k' v E. injection E as <- <-. reflexivity. }
      destruct (IH b s2 I2) as (ev & (F1' & F2' & F3' & F4') & P). exists (EAnswer n b :: ev). split.
      + assert (A2 : active (i_log s2) = active (i_log s1)) by (unfold s2, emit; cbn [i_log]; rewrite active_snoc; reflexivity).
        split; [exact F1'|]. split; [rewrite F2'; unfold s2, emit; cbn [i_log]; rewrite <- app_assoc; reflexivity|]. split; [congruence|]. rewrite <- A2. exact F4'.
      + intros Hm Hn rest. rewrite given_app, G1. cbn [app plain given flat_map]. rewrite <- L1. apply P; [exact Hm|]. intro H. apply Hn. right. exact H.
    - destruct (@with_ok body IH s1 I1) as (ev & F & P). exists ev. split; [exact F|]. intros Hm Hn rest. rewrite given_app, G1. cbn [app plain]. rewrite <- L1. apply P; assumption.
    - destruct (IHp s1 I1) as (ev & F & P). destruct (run p s1) as [o s2]. cbn [fst snd] in *. destruct o as [|e|].
      + exists ev. split; [exact F|]. intros Hm Hn rest. rewrite given_app, G1. cbn [app plain]. rewrite <- L1, (P Hm Hn). reflexivity.
      + destruct (IHh e s2 (proj1 F)) as (ev2 & F2 & P2). exists (ev ++ ev2). split; [eapply fine_trans'; eassumption|]. intros Hm Hn rest. rewrite in_app_iff in Hn.
        rewrite !given_app, G1. cbn [app plain]. rewrite <- L1, <- app_assoc, (P Hm) by tauto. apply (P2 Hm). tauto.
      + exists ev. split; [exact F|]. intros Hm Hn rest. rewrite given_app, G1. cbn [app plain]. rewrite <- L1, (P Hm Hn). reflexivity.
    - destruct (IHp s1 I1) as (ev & F & P). destruct (run p s1) as [o s2]. unfold andthen. cbn [fst snd] in *. destruct o as [|e|].
      + destruct (IHq s2 (proj1 F)) as (ev2 & F2 & P2). exists (ev ++ ev2). split; [eapply fine_trans; eassumption|]. intros Hm Hn rest. rewrite in_app_iff in Hn.
        rewrite !given_app, G1. cbn [app plain]. rewrite <- L1, <- app_assoc, (P Hm) by tauto. apply (P2 Hm). tauto.
      + exists ev. split; [exact F|]. intros Hm Hn rest. rewrite given_app, G1. cbn [app plain]. rewrite <- L1, (P Hm Hn). reflexivity.
      + exists ev. split; [exact F|]. intros Hm Hn rest. rewrite given_app, G1. cbn [app plain]. rewrite <- L1, (P Hm Hn). reflexivity.
  Qed.
End Proofs.

(** * PropInterrupt: C51, catching interrupts *)
From Verif Require Import Np NpFacts MInterrupt SInterrupt PInterrupt.
Set Implicit Arguments.
Open Scope nat_scope.

Section Restored.
  Variables (sigint : nat -> bool) (user : nat -> nat -> option pyexn) (main : bool).
  Notation tick := (tick sigint user).
  Notation run := (run sigint user main).
  Lemma tick_handler s : i_handler (snd (tick s)) = i_handler s.
  Proof. unfold MInterrupt.tick. destruct (sigint (i_time s)); [|reflexivity]. cbn [i_handler]. destruct (i_handler s) eqn:E; try reflexivity. destruct (user k (i_time s)); reflexivity. Qed.
  Lemma tick_caught s n : i_handler s = HSet n -> fst (tick s) = Done.
  Proof. intro E. unfold MInterrupt.tick. cbn [i_handler]. rewrite E. destruct (sigint (i_time s)); reflexivity. Qed.

  Definition restores (r : outcome * ist) (h : handler) : Prop := (fst r <> Killed -> i_handler (snd r) = h) /\ (fst r = Killed -> forall n, h <> HSet n).
  Lemma restores_then s r f : restores r (i_handler s) -> (forall s', i_handler s' = i_handler s -> restores (f s') (i_handler s)) -> restores (andthen r f) (i_handler s).
  Proof. clear. intros H1 H2. unfold andthen. destruct (fst r) eqn:E; [|exact H1|exact H1]. apply H2. apply H1. rewrite E. discriminate. Qed.
  Lemma tick_restores s : restores (tick s) (i_handler s).
  Proof. split; [intros _; apply tick_handler|]. intros E n Hn. rewrite (@tick_caught s n Hn) in E. discriminate. Qed.

  Lemma with_restores body s : (forall n s, i_handler s <> HForeign -> restores (body n s) (i_handler s)) -> i_handler s <> HForeign ->
    restores (run_with sigint user main body s) (i_handler s).
  Proof.
    intros IH Hs. unfold run_with. set (n := length (i_cells s)). set (s0 := mkI _ _ _ _). assert (E0 : i_handler s0 = i_handler s) by reflexivity. rewrite <- E0. rewrite <- E0 in Hs. clear E0. clearbody s0 n. clear s.
    apply restores_then; [apply tick_restores|]. intros s1 H1. apply restores_then; [rewrite <- H1; apply tick_restores|]. intros s2 H2. rewrite signal_ok by discriminate. unfold andthen at 1.
    destruct main eqn:Em; cbn [fst snd]; [|split; [intros _; exact H2|discriminate]]. set (s3 := emit _ _). unfold andthen at 1. assert (H3 : i_handler s3 = HSet n) by reflexivity.
    rewrite (tick_caught _ H3). set (s4 := snd (tick s3)). assert (H4 : i_handler s4 = HSet n) by (unfold s4; rewrite tick_handler; exact H3).
    destruct (IH n s4) as (R1 & R2); [rewrite H4; discriminate|]. rewrite H4 in R1, R2. destruct (body n s4) as [o s5]. cbn [fst snd] in *.
    assert (Hk : o <> Killed) by (intro E; exact (R2 E n eq_refl)). specialize (R1 Hk). 
    assert (R : forall o, o <> Killed -> restores (andthen (tick s5) (fun s => andthen (signal_signal true s (i_handler s1)) (fun s => andthen (tick (emit s (ELeave n))) (fun s => (o, s))))) (i_handler s0)).
    { clear o Hk R2. intros o Hk. unfold andthen at 1. rewrite (tick_caught _ R1). rewrite H1. unfold signal_signal. set (s6 := snd (tick s5)).
      assert (E : (match i_handler s0 with HForeign => (Exc PyTypeError, s6) | _ => (Done, set_handler s6 (i_handler s0)) end) = (Done, set_handler s6 (i_handler s0))) by (destruct (i_handler s0) eqn:Q; try reflexivity; exfalso; apply Hs; first [reflexivity|exact Q]).
      rewrite E. unfold andthen at 1. cbn [fst snd]. set (s7 := emit _ _). change (i_handler s0) with (i_handler s7). apply restores_then; [apply tick_restores|]. intros s8 H8. split; [intros _; exact H8|intro E8; destruct (Hk E8)]. }
    destruct o; [apply R; discriminate|apply R; discriminate|contradiction].
  Qed.
  Lemma run_restores p : forall s, i_handler s <> HForeign -> restores (run p s) (i_handler s).
  Proof.
    induction p as [|e|k IH|n k IH|body IH|p IHp h IHh|p IHp q IHq]; intros s Hs; cbn [MInterrupt.run]; (apply restores_then; [apply tick_restores|]); intros s1 H1; rewrite <- H1 in *; cbv beta.
    - split; [reflexivity|discriminate].
    - split; [reflexivity|discriminate].
    - auto.
    - apply (IH _ (emit s1 (EAnswer n (nth n (i_cells s1) false)))). exact Hs.
    - apply with_restores; [intros; apply IH; assumption|exact Hs].
    - destruct (IHp s1 Hs) as (R1 & R2). destruct (run p s1) as [o s2]. cbn [fst snd] in *. destruct o; [split; auto| |split; auto]. rewrite <- R1 in * by discriminate. apply IHh. exact Hs.
    - apply restores_then; [apply IHp; exact Hs|]. intros s2 H2. rewrite <- H2 in *. apply IHq. exact Hs.
  Qed.
End Restored.

(** Every program with any nesting of catchers leaves the handler as it was, however it ends, at whatever steps SIGINTs arrive.
    Condition: the handler on entry was installed from Python (otherwise getsignal returns None). *)
Theorem C51_restored : forall sigint user main p s o s', i_handler s <> HForeign -> run sigint user main p s = (o, s') -> o <> Killed -> i_handler s' = i_handler s.
Proof. intros sigint user main p s o s' Hs E Ho. pose proof (proj1 (@run_restores sigint user main p s Hs)) as H. rewrite E in H. exact (H Ho). Qed.
(** Inside a catcher, the process is not ended by a SIGINT. *)
Theorem C51_alive : forall sigint user main p s n, i_handler s = HSet n -> fst (run sigint user main p s) <> Killed.
Proof. intros sigint user main p s n Hs E. apply (proj2 (@run_restores sigint user main p s ltac:(rewrite Hs; discriminate)) E n). exact Hs. Qed.

(** SIGINTs inside catchers are recorded by the innermost one only and stop nothing; is_interrupted answers accordingly. *)
Theorem C51_recorded : forall sigint user main h p, h <> HForeign -> (forall n, h <> HSet n) ->
  let log := i_log (snd (run sigint user main p (mkI h [] 0 []))) in
  nested log /\ answers_right log /\ never_stops log /\ active log = [].
Proof.
  intros sigint user main h p Hf Hs log. unfold log. clear log.
  assert (I : IInv h (mkI h [] 0 [])).
  { split; cbn [i_handler i_log i_cells]; [reflexivity|intros n []| | | |]; try (intros a b; intros; destruct a; discriminate).
    - intro n. split; [destruct n; discriminate|]. intros (a & b & E & _). destruct a; discriminate. }
  destruct (@run_ok sigint user main h Hf Hs p _ I) as (ev & ([I1 I2 I3 I4 I5 I6] & _ & A & _) & _). repeat (split; [assumption|]). exact A.
Qed.

(** Catchers change nothing else: if no SIGINT stopped the code, it did what it does without catchers, for the answers given. *)
Theorem C51_transparent : forall sigint user h p, h <> HForeign -> (forall n, h <> HSet n) ->
  let r := run sigint user true p (mkI h [] 0 []) in
  ~ In EStop (i_log (snd r)) -> fst (fst (plain p 0 (given (i_log (snd r))))) = fst r.
Proof.
  intros sigint user h p Hf Hs r Hn. unfold r in *. clear r.
  assert (I : IInv h (mkI h [] 0 [])).
  { split; cbn [i_handler i_log i_cells]; [reflexivity|intros n []| | | |]; try (intros a b; intros; destruct a; discriminate).
    - intro n. split; [destruct n; discriminate|]. intros (a & b & E & _). destruct a; discriminate. }
  destruct (@run_ok sigint user true h Hf Hs p _ I) as (ev & (_ & El & _) & P). cbn [i_log app] in El. rewrite El in *. specialize (P eq_refl Hn []). rewrite app_nil_r in P. cbn [i_cells length] in P. rewrite P. reflexivity.
Qed.

Definition stays (r : outcome * ist) (n : nat) : Prop := fst r = Exc PyTypeError /\ i_handler (snd r) = HSet n.
(** If the handler on entry was not installed from Python, every with statement that ends raises TypeError and leaves the catcher's handler. *)
Theorem C51_foreign : forall sigint user body s, i_handler s = HForeign ->
  (forall n s, i_handler s = HSet n -> i_handler (snd (body n s)) = HSet n /\ fst (body n s) <> Killed) ->
  let r := run_with sigint user true body s in fst r = Exc PyTypeError /\ i_handler (snd r) = HSet (length (i_cells s)).
Proof.
  intros sigint user body s Hs HB r. change (stays r (length (i_cells s))). unfold r, run_with. clear r. set (n := length (i_cells s)). set (s0 := mkI _ _ _ _). assert (H0 : i_handler s0 = HForeign) by exact Hs. clearbody s0 n. clear s Hs.
  assert (T : forall s, i_handler s = HForeign -> fst (tick sigint user s) = Done) by (intros s E; unfold tick; cbn [i_handler]; rewrite E; destruct (sigint (i_time s)); reflexivity).
  unfold andthen at 1. rewrite (T _ H0). set (s1 := snd (tick sigint user s0)). assert (H1 : i_handler s1 = HForeign) by (unfold s1; rewrite tick_handler; exact H0).
  unfold andthen at 1. rewrite (T _ H1). set (s2 := snd (tick sigint user s1)). unfold andthen at 1. cbn [fst snd signal_signal]. set (s3 := emit _ _). assert (H3 : i_handler s3 = HSet n) by reflexivity.
  unfold andthen at 1. rewrite (@tick_caught sigint user s3 n H3). set (s4 := snd (tick sigint user s3)). assert (H4 : i_handler s4 = HSet n) by (unfold s4; rewrite tick_handler; exact H3).
  destruct (HB n s4 H4) as (H5 & Hk). destruct (body n s4) as [o s5]. cbn [fst snd] in *. 
  assert (R : forall o, stays (andthen (tick sigint user s5) (fun s => andthen (signal_signal true s (i_handler s1)) (fun s => andthen (tick sigint user (emit s (ELeave n))) (fun s => (o, s))))) n).
  { clear o Hk. intro o. unfold andthen at 1. rewrite (@tick_caught sigint user s5 n H5), H1. unfold andthen. cbn [signal_signal fst snd]. split; [reflexivity|]. cbn [fst snd]. rewrite tick_handler. exact H5. }
  destruct o; [apply R|apply R|contradiction].
Qed.
Theorem C51_restored_refuted : exists p s, (exists b, p = PWith b) /\ i_handler (snd (run (fun _ => false) (fun _ _ => None) true p s)) <> i_handler s.
Proof. exists (PWith (fun _ => PEnd)), (mkI HForeign [] 0 []). split; [eexists; reflexivity|]. cbn. discriminate. Qed.
(** Outside of the main thread, a with statement raises ValueError before its body is run (unless a SIGINT comes first). *)
Theorem C51_thread : forall user body s, run_with (fun _ => false) user false body s = (Exc PyValueError, mkI (i_handler s) (i_cells s ++ [false]) (i_time s + 2) (i_log s)).
Proof. intros user body s. unfold run_with, andthen, tick. cbn. rewrite <- Nat.add_assoc. reflexivity. Qed.

Print Assumptions C51_restored.
Print Assumptions C51_alive.
Print Assumptions C51_recorded.
Print Assumptions C51_transparent.
Print Assumptions C51_foreign.
Print Assumptions C51_restored_refuted.
Print Assumptions C51_thread.

(** ** Examples *)
(** An outer catcher around work, an inner one whose body raises, and questions to both; SIGINTs inside the inner catcher, the exception handled outside *)
Definition two : prog := PWith (fun a => PSeq (PTry (PWith (fun b => PWork (PWork (PAsk b (fun v => if v then PRaise (Other 7) else PEnd))))) (fun _ => PEnd)) (PAsk a (fun _ => PEnd))).
Definition at_step (l : list nat) (t : nat) : bool := existsb (Nat.eqb t) l.
Example C51_recorded_example : run (at_step [12]) (fun _ _ => None) true two (mkI HInt [] 0 []) =
  (Done, mkI HInt [false; true] 21 [EEnter 0; EEnter 1; ESig; EAnswer 1 true; ELeave 1; EAnswer 0 false; ELeave 0]).
Proof. vm_compute. reflexivity. Qed.
(** After the inner one, the outer one records. *)
Example C51_recorded_example' : run (at_step [16]) (fun _ _ => None) true two (mkI HInt [] 0 []) =
  (Done, mkI HInt [true; false] 20 [EEnter 0; EEnter 1; EAnswer 1 false; ELeave 1; ESig; EAnswer 0 true; ELeave 0]).
Proof. vm_compute. reflexivity. Qed.
(** A SIGINT after the outer catcher has been left raises, with the handler restored. *)
Example C51_restored_example : let r := run (at_step [3; 19]) (fun _ _ => None) true two (mkI HInt [] 0 []) in
  fst r = Exc KeyboardInterrupt /\ i_handler (snd r) = HInt /\ i_cells (snd r) = [true; false].
Proof. vm_compute. auto. Qed.
Example C51_transparent_example : let r := run (at_step [12]) (fun _ _ => None) true (PWith (fun b => PWork (PWork (PWork (PWork (PWork (PWork (PWork (PWork (PAsk b (fun v => if v then PRaise (Other 7) else PEnd))))))))))) (mkI (HUser 3) [] 0 []) in
  fst r = Exc (Other 7) /\ i_handler (snd r) = HUser 3 /\ given (i_log (snd r)) = [true].
Proof. vm_compute. auto. Qed.
Example C51_foreign_example : let r := run (at_step []) (fun _ _ => None) true two (mkI HForeign [] 0 []) in fst r = Exc PyTypeError /\ i_handler (snd r) = HSet 0.
Proof. vm_compute. auto. Qed.
Example C51_thread_example : fst (run (at_step []) (fun _ _ => None) false two (mkI HInt [] 0 [])) = Exc PyValueError.
Proof. vm_compute. reflexivity. Qed.

(** * MInterrupt: model of distancematrix/interrupt_util.py *)
From Verif Require Import Np.
Set Implicit Arguments.
Open Scope nat_scope.

(** Values of [signal.getsignal(SIGINT)]: default_int_handler, SIG_IGN, SIG_DFL, None (a handler that was not installed from Python),
    the closure set_interrupted of the catcher whose variable is cell [n], another callable *)
Inductive handler := HInt | HIgnore | HSystem | HForeign | HSet (n : nat) | HUser (k : nat).
Inductive pyexn := KeyboardInterrupt | PyTypeError | PyValueError | Other (k : nat).
(** Outcome of a piece of code; [Killed]: the process ended by the signal, nothing more is run *)
Inductive outcome := Done | Exc (e : pyexn) | Killed.

(** What happens during an execution: a SIGINT reaches its handler; the handler ends the running code (by an exception or by ending the process);
    a catcher replaces the handler; a catcher puts the old one back; is_interrupted of catcher [n] answers *)
Inductive event := ESig | EStop | EEnter (n : nat) | ELeave (n : nat) | EAnswer (n : nat) (b : bool).

Record ist := mkI { i_handler : handler; i_cells : list bool; i_time : nat; i_log : list event }.
Definition emit (s : ist) (e : event) : ist := mkI (i_handler s) (i_cells s) (i_time s) (i_log s ++ [e]).
Definition set_handler (s : ist) (h : handler) : ist := mkI h (i_cells s) (i_time s) (i_log s).

(** Programs that use catchers: the end, an exception, any other work, a question to is_interrupted of catcher [n] with a continuation, a with
    statement whose body gets the catcher's cell, try/except around a program, sequences.  They replace the SIGINT handler only through catchers. *)
Inductive prog :=
| PEnd
| PRaise (e : pyexn)
| PWork (k : prog)
| PAsk (n : nat) (k : bool -> prog)
| PWith (body : nat -> prog)
| PTry (p : prog) (h : pyexn -> prog)
| PSeq (p q : prog).

Section Interrupt.
  (** [sigint t]: a SIGINT is pending at step [t].  [user k t]: what callable [k] does at step [t].  [main]: the code runs in the main thread. *)
  Variables (sigint : nat -> bool) (user : nat -> nat -> option pyexn) (main : bool).

  (** The interpreter handles a pending signal between any two steps. *)
  Definition tick (s : ist) : outcome * ist :=
    let t := i_time s in
    let s := mkI (i_handler s) (i_cells s) (t + 1) (i_log s) in
    if sigint t then
      match i_handler s with
      | HInt => (Exc KeyboardInterrupt, emit (emit s ESig) EStop)
      | HIgnore | HForeign => (Done, emit s ESig)
      | HSystem => (Killed, emit (emit s ESig) EStop)
      | HSet n => (Done, emit (mkI (i_handler s) (splice (i_cells s) n [true]) (i_time s) (i_log s)) ESig)   (* 15-17 *)
      | HUser k => match user k t with None => (Done, emit s ESig) | Some e => (Exc e, emit (emit s ESig) EStop) end
      end
    else (Done, s).

  Definition andthen (r : outcome * ist) (f : ist -> outcome * ist) : outcome * ist := match fst r with Done => f (snd r) | _ => r end.

  (** [signal.signal(SIGINT, h)]: TypeError for None; ValueError outside of the main thread *)
  Definition signal_signal (s : ist) (h : handler) : outcome * ist :=
    if main then match h with HForeign => (Exc PyTypeError, s) | _ => (Done, set_handler s h) end else (Exc PyValueError, s).

  (** 5-31, with contextlib.contextmanager: the body's exception is raised again at the yield.  13: a new variable; 24, 25: the handler; 27-31 *)
  Definition run_with (body : nat -> ist -> outcome * ist) (s : ist) : outcome * ist :=
    let n := length (i_cells s) in
    let s := mkI (i_handler s) (i_cells s ++ [false]) (i_time s) (i_log s) in
    andthen (tick s) (fun s =>
    let original := i_handler s in
    andthen (tick s) (fun s =>
    andthen (signal_signal s (HSet n)) (fun s =>
    andthen (tick (emit s (EEnter n))) (fun s =>
    let r := body n s in
    match fst r with
    | Killed => r
    | o =>
        andthen (tick (snd r)) (fun s =>
        andthen (signal_signal s original) (fun s =>
        andthen (tick (emit s (ELeave n))) (fun s => (o, s))))
    end)))).

  Fixpoint run (p : prog) (s : ist) : outcome * ist :=
    andthen (tick s) (fun s =>
    match p with
    | PEnd => (Done, s)
    | PRaise e => (Exc e, s)
    | PWork k => run k s
    | PAsk n k => let b := nth n (i_cells s) false in run (k b) (emit s (EAnswer n b))   (* 19-21 *)
    | PWith body => run_with (fun n => run (body n)) s
    | PTry p h => let r := run p s in match fst r with Exc e => run (h e) (snd r) | _ => r end
    | PSeq p q => andthen (run p s) (run q)
    end).
End Interrupt.

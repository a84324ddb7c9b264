(** * SInterrupt: what catching interrupts means, on the events of an execution *)
From Verif Require Import Np MInterrupt.
Set Implicit Arguments.
Open Scope nat_scope.

(** The active catchers after the events, the innermost first *)
Definition active1 (st : list nat) (e : event) : list nat := match e with EEnter n => n :: st | ELeave _ => tl st | _ => st end.
Definition active (l : list event) : list nat := fold_left active1 l [].

(** A SIGINT arrived while [n] was the innermost catcher. *)
Definition received (n : nat) (l : list event) : Prop := exists a b, l = a ++ ESig :: b /\ hd_error (active a) = Some n.

(** Catchers are left in the opposite order. *)
Definition nested (l : list event) : Prop := forall a n b, l = a ++ ELeave n :: b -> hd_error (active a) = Some n.
(** is_interrupted answers whether its catcher received a SIGINT. *)
Definition answers_right (l : list event) : Prop := forall a n v b, l = a ++ EAnswer n v :: b -> (v = true <-> received n a).
(** No signal ends code inside a catcher. *)
Definition never_stops (l : list event) : Prop := forall a b, l = a ++ EStop :: b -> active a = [].

(** Meaning of a program without signals and catchers, for given answers of is_interrupted; second component: the answers that are left.
    [cells]: the number of catchers created so far. *)
Fixpoint plain (p : prog) (cells : nat) (answers : list bool) : outcome * nat * list bool :=
  match p with
  | PEnd => (Done, cells, answers)
  | PRaise e => (Exc e, cells, answers)
  | PWork k => plain k cells answers
  | PAsk _ k => match answers with b :: answers => plain (k b) cells answers | [] => (Done, cells, []) end
  | PWith body => plain (body cells) (cells + 1) answers
  | PTry p h => match plain p cells answers with (Exc e, c, a) => plain (h e) c a | r => r end
  | PSeq p q => match plain p cells answers with (Done, c, a) => plain q c a | r => r end
  end.
Definition given (l : list event) : list bool := flat_map (fun e => match e with EAnswer _ b => [b] | _ => [] end) l.

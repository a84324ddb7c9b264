(** * Inst: carriers on which the model runs. *)
From Verif Require Import Np.
From Coq Require Import Qcanon.

(** Integers: executable; division and square root are the truncating ones and are only used where
    results are exact. *)
#[export] Instance NumZ : NumOps Z := {
  nzero := 0%Z; nadd := Z.add; nsub := Z.sub; nmul := Z.mul; ndiv := Z.div; nsqrt := Z.sqrt;
  nltb := Z.ltb; nofZ := fun z => z
}.

#[export] Instance OrdZ : OrdLaws Z.
Proof.
  constructor; simpl; intros.
  - apply Z.ltb_irrefl.
  - apply Z.ltb_lt in H, H0. apply Z.ltb_lt. lia.
  - apply Z.ltb_ge in H, H0. lia.
Qed.

Definition Fz (z : Z) : num Z := Fin z.

(** * PRand: laws of random programs. *)
From Coq Require Import QArith.
From Verif Require Import Np MRand SRand.
Set Implicit Arguments.
Open Scope Q_scope.

Lemma qsum_ext n f g : (forall i, (i < n)%nat -> f i == g i) -> qsum n f == qsum n g.
Proof.
  induction n as [|n IH]; intro H; simpl; [reflexivity|]. rewrite IH by (intros; apply H; lia).
  rewrite H by lia. reflexivity.
Qed.
Lemma qsum_plus n f g : qsum n (fun i => f i + g i) == qsum n f + qsum n g.
Proof. induction n as [|n IH]; simpl; [reflexivity|]. rewrite IH. ring. Qed.
Lemma qsum_mult n a f : qsum n (fun i => a * f i) == a * qsum n f.
Proof. induction n as [|n IH]; simpl; [ring|]. rewrite IH. ring. Qed.
Lemma qsum_const n a : qsum n (fun _ => a) == inject_Z (Z.of_nat n) * a.
Proof.
  induction n as [|n IH]; cbn [qsum]; [simpl; ring|]. rewrite IH, Nat2Z.inj_succ, <- Z.add_1_r, inject_Z_plus. ring.
Qed.

Lemma inject_pos n : (0 < n)%nat -> ~ inject_Z (Z.of_nat n) == 0.
Proof. intros H E. change 0 with (inject_Z 0) in E. apply (proj1 (inject_Z_injective _ _)) in E. lia. Qed.
Lemma frac_full n : (0 < n)%nat -> inject_Z (Z.of_nat n) * frac 1 n == 1.
Proof. intro H. unfold frac. simpl (inject_Z (Z.of_nat 1)). field. apply inject_pos, H. Qed.

Section Laws.
  Context {X Y : Type}.

  Lemma safe_impl (t : rnd X) (P Q : X -> Prop) : (forall x, P x -> Q x) -> safe t P -> safe t Q.
  Proof.
    intro H. induction t as [x|e|a b k IH|n k IH]; simpl; auto.
    intros [Hn Hk]. split; [exact Hn|]. intros i Hi. apply IH, Hk, Hi.
  Qed.
  Lemma safe_and (t : rnd X) (P Q : X -> Prop) : safe t P -> safe t Q -> safe t (fun x => P x /\ Q x).
  Proof.
    induction t as [x|e|a b k IH|n k IH]; simpl; auto.
    intros [Hn Hk] [_ Hk']. split; [exact Hn|]. intros i Hi. apply IH; auto.
  Qed.
  Lemma safe_bind (t : rnd X) (f : X -> rnd Y) P Q :
    safe t P -> (forall x, P x -> safe (f x) Q) -> safe (rbind t f) Q.
  Proof.
    intros H Hf. induction t as [x|e|a b k IH|n k IH]; simpl in *; auto.
    destruct H as [Hn Hk]. split; [exact Hn|]. intros i Hi. apply IH, Hk, Hi.
  Qed.

  Lemma expect_bind (t : rnd X) (f : X -> rnd Y) g :
    expect (rbind t f) g == expect t (fun x => expect (f x) g).
  Proof.
    induction t as [x|e|a b k IH|n k IH]; simpl; try reflexivity.
    - rewrite (IH true), (IH false). reflexivity.
    - apply qsum_ext. intros i _. rewrite IH. reflexivity.
  Qed.

  Lemma expect_ext (t : rnd X) P f g : safe t P -> (forall x, P x -> f x == g x) -> expect t f == expect t g.
  Proof.
    intros H E. induction t as [x|e|a b k IH|n k IH]; simpl in *; auto; try contradiction.
    - rewrite (IH true), (IH false) by auto. reflexivity.
    - apply qsum_ext. intros i Hi. rewrite IH by (apply H, Hi). reflexivity.
  Qed.

  Lemma expect_affine (t : rnd X) P a b g : safe t P ->
    expect t (fun x => a + b * g x) == a + b * expect t g.
  Proof.
    intro H. induction t as [x|e|p q k IH|n k IH]; simpl in *; try contradiction; [reflexivity| |].
    - rewrite (IH true), (IH false) by auto. ring.
    - rewrite (@qsum_ext n _ (fun i => frac 1 n * a + b * (frac 1 n * expect (k i) g))).
      + rewrite qsum_plus, qsum_const, (qsum_mult n b).
        rewrite Qmult_assoc, frac_full by apply H. ring.
      + intros i Hi. rewrite IH by (apply H, Hi). ring.
  Qed.
  Lemma expect_const (t : rnd X) P a : safe t P -> expect t (fun _ => a) == a.
  Proof.
    intro H. rewrite (@expect_ext t P _ (fun x => a + 0 * (fun _ => 0) x) H) by (intros; ring).
    rewrite (@expect_affine t P a 0 _ H). ring.
  Qed.
End Laws.

Lemma rbind_assoc_expect {X Y W} (t : rnd X) (f : X -> rnd Y) (g : Y -> rnd W) h :
  expect (rbind (rbind t f) g) h == expect (rbind t (fun x => rbind (f x) g)) h.
Proof.
  rewrite !expect_bind. induction t as [x|e|a b k IH|n k IH]; simpl; try reflexivity.
  - rewrite expect_bind. reflexivity.
  - rewrite (IH true), (IH false). reflexivity.
  - apply qsum_ext. intros i _. rewrite IH. reflexivity.
Qed.

Lemma rfold_app_safe {S T} (f : S -> T -> rnd S) l x s P :
  safe (rfold f (l ++ [x]) s) P <-> safe (rbind (rfold f l s) (fun s' => f s' x)) P.
Proof.
  revert s; induction l as [|y l IH]; intro s; simpl.
  - enough (E : forall t : rnd S, safe (rbind t (fun s' => Ret s')) P <-> safe t P) by apply E.
    induction t as [s'|e|a b k IHt|n k IHt]; simpl; try tauto.
    + split; intros H o; apply IHt, H.
    + split; intros [Hn H]; (split; [exact Hn|]); intros i Hi; apply IHt, H, Hi.
  - induction (f s y) as [s'|e|a b k IHt|n k IHt]; simpl; try tauto.
    + apply IH.
    + split; intros H o; apply IHt, H.
    + split; intros [Hn H]; (split; [exact Hn|]); intros i Hi; apply IHt, H, Hi.
Qed.

Lemma rfold_app_expect {S T} (f : S -> T -> rnd S) l x s g :
  expect (rfold f (l ++ [x]) s) g == expect (rbind (rfold f l s) (fun s' => f s' x)) g.
Proof.
  revert s; induction l as [|y l IH]; intro s; simpl.
  - rewrite expect_bind. reflexivity.
  - rewrite rbind_assoc_expect, !expect_bind.
    induction (f s y) as [s'|e|a b k IHt|n k IHt]; simpl; try reflexivity.
    + apply IH.
    + rewrite (IHt true), (IHt false). reflexivity.
    + apply qsum_ext. intros i _. rewrite IHt. reflexivity.
Qed.

Lemma expect_plus {X} (t : rnd X) f g : expect t (fun x => f x + g x) == expect t f + expect t g.
Proof.
  induction t as [x|e|p q k IH|n k IH]; simpl; try reflexivity.
  - rewrite (IH true), (IH false). ring.
  - rewrite <- qsum_plus. apply qsum_ext. intros i _. rewrite IH. ring.
Qed.
Lemma expect_scale {X} (t : rnd X) a g : expect t (fun x => a * g x) == a * expect t g.
Proof.
  induction t as [x|e|p q k IH|n k IH]; simpl; try reflexivity.
  - ring.
  - rewrite (IH true), (IH false). ring.
  - rewrite <- (qsum_mult n a). apply qsum_ext. intros i _. rewrite IH. ring.
Qed.

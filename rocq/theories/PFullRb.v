(** * PFullRb: ring buffers whose window is full (the state of every consumer buffer). *)
From Verif Require Import Np NpFacts MRing PRing.
From Coq Require Import QArith.
Set Implicit Arguments.
Open Scope nat_scope.

Section Full.
  Variable T : Type.

  Record full_rb (n : nat) (b : rb T) : Prop := {
    f_ok : rb_ok b;
    f_max : rb_max b = n;
    f_len : length (rb_view b) = n;
    f_cap : length (rb_buf b) <= 2 * n
  }.

  Lemma full_new mem (d : list T) sf : (1 <= sf)%Q -> (sf <= 2)%Q -> 0 < length d ->
    exists b, rb_new mem (Some d) None true sf = Ok b /\ full_rb (length d) b /\ rb_view b = d.
  Proof.
    intros H1 H2 Hn.
    destruct (@rb_new_rel T mem (Some d) None (length d) sf H1 Hn) as (b & E & (R1 & R2 & R3 & R4) & _ & C).
    - eauto.
    - auto.
    - exists b. rewrite lastn_all in R4 by lia. split; [exact E|]. split; [|exact R4].
      constructor; auto. congruence.
  Qed.

  Lemma full_push n b (d : list T) : 0 < n -> full_rb n b ->
    exists b', rb_push b d = Ok (b', length d) /\ full_rb n b' /\ rb_view b' = lastn n (rb_view b ++ d).
  Proof.
    intros Hn [Ho Hm Hl Hc].
    destruct (@rb_push_spec T b d Ho) as (b' & E & Ho' & V & C & M); [lia|lia|].
    rewrite Hm in *.
    assert (L : length (rb_view b') = n) by (rewrite V, length_lastn, app_length; lia).
    exists b'. split; [rewrite E; do 2 f_equal; lia|]. split; [|exact V]. constructor; auto; lia.
  Qed.

  Lemma full_set_view n b (w : list T) : full_rb n b -> length w = n ->
    full_rb n (rb_set_view b w) /\ rb_view (rb_set_view b w) = w.
  Proof.
    intros [Ho Hm Hl Hc] Hw.
    destruct (@rb_set_view_spec T b w Ho) as (Ho' & V & M & C).
    { rewrite <- (length_rb_view Ho). lia. }
    split; [|exact V]. constructor; auto; try congruence; lia.
  Qed.

  Lemma full_setitem n b c (x : T) : full_rb n b -> c < n ->
    exists b', rb_setitem b (Z.of_nat c) x = Ok b' /\ full_rb n b' /\
      forall j, nth_error (rb_view b') j = if j =? c then Some x else nth_error (rb_view b) j.
  Proof.
    intros Hf Hc. pose proof Hf as [Ho Hm Hl Hcap]. unfold rb_setitem. rewrite Hl.
    destruct (Z.ltb_spec (Z.of_nat c) (- Z.of_nat n)); [lia|].
    destruct (Z.leb_spec (Z.of_nat n) (Z.of_nat c)); [lia|]. cbn [orb].
    destruct (Z.ltb_spec (Z.of_nat c) 0); [lia|]. rewrite Nat2Z.id.
    destruct (@full_set_view n b (splice (rb_view b) c [x]) Hf) as [F V].
    { rewrite length_set1; lia. }
    eexists; split; [reflexivity|]. split; [exact F|]. intro j. rewrite V. apply nth_error_set1. lia.
  Qed.

  (** Pushing onto a full window moves every entry [length d] places forward. *)
  Lemma nth_lastn_push n (v d : list T) c : length v = n -> c < n ->
    nth_error (lastn n (v ++ d)) c =
    if c + length d <? n then nth_error v (c + length d) else nth_error d (c + length d - n).
  Proof.
    intros Hv Hc. rewrite nth_error_lastn, app_length, nth_error_app, Hv.
    replace (n + length d - n + c) with (c + length d) by lia. reflexivity.
  Qed.
End Full.

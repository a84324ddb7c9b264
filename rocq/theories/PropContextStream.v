(** * Property C105: contextual matrix profiles in complete streaming programs, in every history *)
From Coq Require Import QArith Reals Lra Sorted Permutation.
From Verif Require Import Np NpFacts Inst Mat SLog MProfile MEuclid MZnorm MFilter MDist MContext SContext SHeld PHeld PCmpRun MCalc SReal SCalc SStream PStream SMixed SGen SFilter SEnd SEndStream PArith PCalcEnd PEndStream PFilter PFilterReal
  SEndAll SEndCons PEndProg SEndStreamAll PEndStreamAll PropCalc PropZnorm PropFilter PropContext PropEnd PropEndStream PropEndStreamAll PropContextExact.
Set Implicit Arguments.
Open Scope nat_scope.

(** What is calculated is the matrix of the complete streams: a set of cells of it *)
Definition calculated_cells (D : nat -> nat -> num R) (b : Z) (cells : list (nat * nat * nat)) (K : @SHeld.cells R) : Prop :=
  forall r c x, K r c x -> exists r' c', r = Z.of_nat r' /\ c = Z.of_nat c' /\ was_calculated cells c' r' /\ x = masked b D r' c'.

Lemma evs_any k u m W qw ndim buffer dims : stream_posed k u m W qw ndim buffer dims -> forall ops p evs id, id < length dims -> stream_history k u m W qw ndim buffer dims ops p evs ->
  Forall (any_event (match qw with Some q => q | None => W end + 1 - m) (W + 1 - m)) (evs [id]) /\
  forall r a v, In (r, a, v) (log (evs [id])) <->
    exists r' a', r = Z.of_nat r' /\ a = Z.of_nat a' /\ was_calculated (calculated (is_self qw) m W (match qw with Some q => q | None => W end) 0 0 (p_hist p)) a' r' /\
      v = masked (buffer_used qw (Z.of_nat m) buffer) (stream_entry (dist_or_inf (kdist k)) (is_self qw) m (nth id dims 0) (p_hist p)) r' a'.
Proof.
  intros HP ops p evs id Hid Hh. pose proof HP as (H1 & H2 & H3 & H4 & H5 & H6 & H7). set (Wq := match qw with Some q => q | None => W end) in *. set (b := buffer_used qw (Z.of_nat m) buffer) in *.
  pose proof (@evs_mfits R (num R) (dist_or_inf (kdist k)) (is_self qw) m W Wq ndim b (fun id => nth id dims 0) (stream_data k u) H3 H4 (@posed_self W qw) (@posed_buffer m qw buffer) (or_inf_real (kdist k)) ops p evs Hh [id] ltac:(discriminate) ltac:(intros i [<-|[]]; exact (posed_dim HP Hid))) as (FM & FN).
  pose proof (@evs_log R (num R) (dist_or_inf (kdist k)) (is_self qw) m W Wq ndim b (fun id => nth id dims 0) (stream_data k u) H3 H4 (@posed_self W qw) (@posed_buffer m qw buffer) (or_inf_real (kdist k)) ops p evs Hh id (posed_dim HP Hid)) as HL.
  split; [|exact HL]. rewrite Forall_forall in *. intros e He. specialize (FM e He). specialize (FN e He). destruct e as [d vs|c vs|n|n]; [destruct FN; exact I| |exact I|exact I].
  destruct FM as (Hc & n & (L & HR) & Hn1 & Hn2). destruct vs as [|v [|v' vs]]; try discriminate L. destruct (HR v ltac:(left; reflexivity)) as [Lv Hv]. split; [exact Hc|]. exists v, []. split; [reflexivity|]. split; [|lia].
  intros x Hx. destruct (Hv x Hx) as [Hx' _]. destruct x; try reflexivity. congruence.
Qed.

(** C105. ContextualMatrixProfile consumers of the programs of C86 whose manager has contexts fixed in absolute positions, after any history, also when columns are calculated before the query window
    is full and when query contexts are dropped: the program returns if every consumer's history can be followed ([held_after] of C104: the manager does not raise and no calculated column ends before a
    query context of the window begins), and then every entry is the smallest of the cells that it stands for, which are calculated cells of the matrix of the complete streams. *)
Theorem C105_contexts : forall e k u m W qw ndim buffer dims, sur_ok e -> stream_posed k u m W qw ndim buffer dims ->
  let self := is_self qw in let Wq := match qw with Some q => q | None => W end in let b := buffer_used qw (Z.of_nat m) buffer in let h := Wq + 1 - m in let w := W + 1 - m in
  forall M (MO : ManagerOps M) CH CW QA SA inv m0, stream_manager MO h w CH CW QA SA inv -> 0 < CW -> inv m0 0%Z 0%Z 0 0 -> man_shape MO m0 = Ok (CH, CW) ->
  forall memn memz sfc ids ops p evs, (1 <= sfc)%Q -> (sfc <= 2)%Q -> (forall id, In id ids -> id < length dims) -> stream_history k u m W qw ndim buffer dims ops p evs ->
  let program := ksprogram e k (cm_step MO) (Z.of_nat m) (Z.of_nat W) (option_map Z.of_nat qw) ndim buffer (map Z.of_nat dims)
      (map (fun id => ([id], fun _ q s => cm_init MO memn memz sfc m0 (Z.to_nat q) (Z.to_nat s))) ids) ops in
  let after id := held_after MO h CH CW QA SA m0 (evs [id]) in
  ((exists cns, program = Ok cns) <-> forall id, In id ids -> exists hs, after id = Ok hs) /\
  forall cns, program = Ok cns ->
    Forall2 (fun id s => exists hs, after id = Ok hs /\ forall i j, i < CH -> j < CW ->
      calculated_cells (stream_entry (dist_or_inf (kdist k)) self m (nth id dims 0) (p_hist p)) b (calculated self m W Wq 0 0 (p_hist p)) (hd_shown hs i j) /\
      exists v q r, dv_get (cm_dist s) i j = Ok v /\ dv_get (cm_mq s) i j = Ok q /\ dv_get (cm_ms s) i j = Ok r /\ best_of (hd_shown hs i j) v q r) ids cns.
Proof.
  intros e k u m W qw ndim buffer dims HS HP self Wq b h w M MO CH CW QA SA inv m0 SM HCW Hi Hsh memn memz sfc ids ops p evs S1 S2 Hids Hh program after. pose proof HP as (H1 & H2 & H3 & H4 & H5 & H6 & H7).
  pose proof (@C86_consumers e k u m W qw ndim buffer dims HS HP _ (cm_step MO) (map (fun id => ([id], fun _ q s => cm_init MO memn memz sfc m0 (Z.to_nat q) (Z.to_nat s))) ids) ops p evs) as HC. cbn zeta in HC.
  assert (HL : forall is_ i id, In (is_, i) (map (fun id => ([id], fun (_ : nat) q s => cm_init MO memn memz sfc m0 (Z.to_nat q) (Z.to_nat s))) ids) -> In id is_ -> id < length dims).
  { intros is_ i id Hin Hid. apply in_map_iff in Hin. destruct Hin as (x & E & Hx). injection E as <- _. destruct Hid as [<-|[]]. auto. }
  specialize (HC HL Hh). clear HL. fold program in HC.
  assert (ONE : forall id, In id ids -> exists s0, cm_init MO memn memz sfc m0 h w = Ok s0 /\ match after id with Err x => foldM (cm_step MO) (evs [id]) s0 = Err x | Ok hs => exists s, foldM (cm_step MO) (evs [id]) s0 = Ok s /\ forall i j, i < CH -> j < CW ->
      calculated_cells (stream_entry (dist_or_inf (kdist k)) self m (nth id dims 0) (p_hist p)) b (calculated self m W Wq 0 0 (p_hist p)) (hd_shown hs i j) /\
      exists v q r, dv_get (cm_dist s) i j = Ok v /\ dv_get (cm_mq s) i j = Ok q /\ dv_get (cm_ms s) i j = Ok r /\ best_of (hd_shown hs i j) v q r end).
  { intros id Hid. destruct (evs_any HP (Hids id Hid) Hh) as [HF HE]. fold Wq h w in HF. assert (Hh0 : 0 < h) by (subst h Wq; lia).
    destruct (@C104_entries R NumR OrdR M MO h w CH CW QA SA inv SM Hh0 HCW memn memz sfc m0 (evs [id]) Hi Hsh S1 S2 HF) as (s0 & E0 & G).
    exists s0. split; [exact E0|]. fold (after id) in G. destruct (after id) as [hs|x] eqn:EA; [|exact G]. destruct G as (s & Es & G). exists s. split; [exact Es|].
    intros i j Hi' Hj. split; [|apply G; assumption]. intros r c x Hx. apply HE. exact (@C104_delivered R M MO h CH CW QA SA m0 (evs [id]) hs EA i j r c x Hx). }
  assert (SND : forall cns, program = Ok cns -> Forall2 (fun id s => exists hs, after id = Ok hs /\ forall i j, i < CH -> j < CW ->
      calculated_cells (stream_entry (dist_or_inf (kdist k)) self m (nth id dims 0) (p_hist p)) b (calculated self m W Wq 0 0 (p_hist p)) (hd_shown hs i j) /\
      exists v q r, dv_get (cm_dist s) i j = Ok v /\ dv_get (cm_mq s) i j = Ok q /\ dv_get (cm_ms s) i j = Ok r /\ best_of (hd_shown hs i j) v q r) ids cns).
  { intros cns Ec. apply HC in Ec. clear HC program Hids. revert cns Ec. induction ids as [|id l IH]; intros cns Ec; cbn [map] in Ec; inversion Ec as [|x s l' cns' (c0 & C1 & C2) Ec']; subst; constructor; [|apply IH; [intros; apply ONE; right; assumption|exact Ec']].
    cbn [fst snd length] in C1, C2. rewrite !Nat2Z.id in C1. destruct (ONE id (or_introl eq_refl)) as (s0 & E0 & G). fold Wq h w in C1. assert (s0 = c0) by congruence. subst c0. destruct (after id) as [hs|x]; [|congruence].
    destruct G as (s' & Es & G). assert (s' = s) by congruence. subst s'. exists hs. split; [reflexivity|exact G]. }
  split; [|exact SND]. split.
  - intros (cns & Ec). apply SND in Ec. clear -Ec. induction Ec as [|id s l cns' (hs & E & _) Ec IH]; intros x [].
    + subst x. eauto.
    + apply IH. assumption.
  - intros HA. assert (EX : exists cns, Forall2 (fun ci c => exists c0, snd ci (length (fst ci)) (Z.of_nat (Wq + 1 - m)) (Z.of_nat (W + 1 - m)) = Ok c0 /\ foldM (cm_step MO) (evs (fst ci)) c0 = Ok c)
        (map (fun id => ([id], fun (_ : nat) q s => cm_init MO memn memz sfc m0 (Z.to_nat q) (Z.to_nat s))) ids) cns).
    { clear HC SND program Hids. induction ids as [|id l IH]; [exists []; constructor|]. destruct IH as (cns & F); [intros; apply ONE; right; assumption|intros; apply HA; right; assumption|].
      destruct (ONE id (or_introl eq_refl)) as (s0 & E0 & G). destruct (HA id (or_introl eq_refl)) as (hs & EA). rewrite EA in G. destruct G as (s & Es & _). exists (s :: cns). cbn [map]. constructor; [|exact F].
      cbn [fst snd length]. exists s0. rewrite !Nat2Z.id. split; [exact E0|exact Es]. }
    destruct EX as (cns & EX). exists cns. apply HC, EX.
Qed.
Print Assumptions C105_contexts.

(** C105. If the query shifts drop none, all or exactly half of the contexts and no series context is dropped after a query context, then C89 holds: entry (i, j) is the smallest calculated distance of a
    non-trivial match of query context i + kq and series context j + ks, of which kq and ks were dropped, and where it is. *)
Theorem C105_safe : forall e k u m W qw ndim buffer dims, sur_ok e -> stream_posed k u m W qw ndim buffer dims ->
  let self := is_self qw in let Wq := match qw with Some q => q | None => W end in let b := buffer_used qw (Z.of_nat m) buffer in let h := Wq + 1 - m in let w := W + 1 - m in
  forall M (MO : ManagerOps M) CH CW QA SA inv m0, stream_manager MO h w CH CW QA SA inv -> 0 < CW -> inv m0 0%Z 0%Z 0 0 -> man_shape MO m0 = Ok (CH, CW) ->
  forall memn memz sfc ids ops p evs, (1 <= sfc)%Q -> (sfc <= 2)%Q -> (forall id, In id ids -> id < length dims) -> stream_history k u m W qw ndim buffer dims ops p evs ->
  (forall id, In id ids -> safe MO CH m0 false (evs [id])) ->
  forall cns, ksprogram e k (cm_step MO) (Z.of_nat m) (Z.of_nat W) (option_map Z.of_nat qw) ndim buffer (map Z.of_nat dims)
      (map (fun id => ([id], fun _ q s => cm_init MO memn memz sfc m0 (Z.to_nat q) (Z.to_nat s))) ids) ops = Ok cns ->
    Forall2 (fun id s => exists m1 kq ks, man_after MO m0 (evs [id]) = Ok (m1, kq, ks) /\ forall i j, i < CH -> j < CW -> exists v q r, dv_get (cm_dist s) i j = Ok v /\ dv_get (cm_mq s) i j = Ok q /\ dv_get (cm_ms s) i j = Ok r /\
      smallest_cell (fun r a => seen b (calculated self m W Wq 0 0 (p_hist p)) a r /\ QA (i + kq) (Z.of_nat r) /\ SA (j + ks) (Z.of_nat a)) (stream_entry (dist_or_inf (kdist k)) self m (nth id dims 0) (p_hist p)) v q r) ids cns.
Proof.
  intros e k u m W qw ndim buffer dims HS HP self Wq b h w M MO CH CW QA SA inv m0 SM HCW Hi Hsh memn memz sfc ids ops p evs S1 S2 Hids Hh Hsafe cns Ec. pose proof HP as (H1 & H2 & H3 & H4 & H5 & H6 & H7).
  destruct (@C105_contexts e k u m W qw ndim buffer dims HS HP M MO CH CW QA SA inv m0 SM HCW Hi Hsh memn memz sfc ids ops p evs S1 S2 Hids Hh) as [Hiff _].
  assert (OKS : forall id, In id ids -> exists hs, held_after MO h CH CW QA SA m0 (evs [id]) = Ok hs) by (apply Hiff; exists cns; exact Ec). clear Hiff.
  pose proof (@C86_consumers e k u m W qw ndim buffer dims HS HP _ (cm_step MO) (map (fun id => ([id], fun _ q s => cm_init MO memn memz sfc m0 (Z.to_nat q) (Z.to_nat s))) ids) ops p evs) as HC. cbn zeta in HC.
  assert (HL : forall is_ i id, In (is_, i) (map (fun id => ([id], fun (_ : nat) q s => cm_init MO memn memz sfc m0 (Z.to_nat q) (Z.to_nat s))) ids) -> In id is_ -> id < length dims).
  { intros is_ i id Hin Hid. apply in_map_iff in Hin. destruct Hin as (x & E & Hx). injection E as <- _. destruct Hid as [<-|[]]. auto. }
  specialize (HC HL Hh). clear HL. apply HC in Ec. clear HC. revert cns Ec. induction ids as [|id l IH]; intros cns Ec; cbn [map] in Ec; inversion Ec as [|x s l' cns' (c0 & C1 & C2) Ec']; subst; constructor;
    [|apply IH; [intros; apply Hids; right; assumption|intros; apply Hsafe; right; assumption|intros; apply OKS; right; assumption|exact Ec']].
  cbn [fst snd length] in C1, C2. rewrite !Nat2Z.id in C1. fold Wq h w in C1. destruct (OKS id (or_introl eq_refl)) as (hs & EA). destruct (evs_any HP (Hids id (or_introl eq_refl)) Hh) as [HF HE]. fold Wq h w in HF. assert (Hh0 : 0 < h) by (subst h Wq; lia).
  destruct (@C104_safe R NumR OrdR M MO h w CH CW QA SA inv SM Hh0 HCW memn memz sfc m0 (evs [id]) hs Hi Hsh S1 S2 HF (Hsafe id (or_introl eq_refl)) EA) as (s0 & s' & E0 & Es & Em & G).
  assert (s0 = c0) by congruence. subst c0. assert (s' = s) by (unfold cm_run in Es; congruence). subst s'. exists (hd_man hs), (hd_kq hs), (hd_ks hs). split; [exact Em|].
  intros i j Hi' Hj. destruct (G i j Hi' Hj) as (v & q & r & G1 & G2 & G3 & HB). exists v, q, r. do 3 (split; [assumption|]).
  assert (Hcell : forall r' a', seen b (calculated self m W Wq 0 0 (p_hist p)) a' r' -> In (Z.of_nat r', Z.of_nat a', stream_entry (dist_or_inf (kdist k)) self m (nth id dims 0) (p_hist p) r' a') (log (evs [id]))).
  { intros r' a' (Hf & Hw'). apply HE. exists r', a'. do 2 (split; [reflexivity|]). split; [exact Hw'|]. unfold masked. fold b. destruct (Z.leb_spec (Z.abs (Z.of_nat r' - Z.of_nat a')) b); [lia|reflexivity]. }
  destruct HB as [(-> & -> & -> & HB)|(Hlt & Hin & HR & HB)].
  - left. do 3 (split; [reflexivity|]). intros r' a' (Hs & HQ). eapply HB; [apply Hcell, Hs|exact HQ].
  - right. split; [exact Hlt|]. apply HE in Hin. destruct Hin as (r' & a' & -> & -> & Hw' & ->). fold b in Hlt, HB. unfold masked in *. fold b. fold self Wq. destruct (Z.leb_spec (Z.abs (Z.of_nat r' - Z.of_nat a')) b); [discriminate|].
    exists r', a'. split; [split; [split; [lia|exact Hw']|exact HR]|]. do 3 (split; [reflexivity|]). intros r2 a2 (Hs & HQ). eapply HB; [apply Hcell, Hs|exact HQ].
Qed.
Print Assumptions C105_safe.

(** The program of C89_contexts_refuted, and one that returns although the query window is not full: its only context has begun. *)
Example C105_example :
  ctx_Z 1 2 3 3 [OQuery (Pts [zs [0; 3]; zs [4; 0]]%Z); OSeries (Pts [zs [0; 3; 0]; zs [4; 0; 3]]%Z); OCols never (RFloat (Fin 1%Q))] = Err ValueError /\
  held_after (block_manager 1 2 3 3) 2 3 3 (in_block 1) (in_block 2) (0, 0)%Z [ECol 0 [[Fz 4]]] = Err ValueError /\
  ctx_Z 4 2 2 3 [OQuery (Pts [zs [0; 3]; zs [4; 0]]%Z); OSeries (Pts [zs [0; 3; 0]; zs [4; 0; 3]]%Z); OCols never (RFloat (Fin 1%Q))] =
    Ok [([[Fin 0; PInf]; [PInf; PInf]; [PInf; PInf]], [[0; -1]; [-1; -1]; [-1; -1]], [[0; -1]; [-1; -1]; [-1; -1]]);
        ([[Fin 0; PInf]; [PInf; PInf]; [PInf; PInf]], [[0; -1]; [-1; -1]; [-1; -1]], [[0; -1]; [-1; -1]; [-1; -1]])]%Z.
Proof. split; [vm_compute; reflexivity|]. split; [reflexivity|]. vm_compute. reflexivity. Qed.

(** The constructor of EniBase without memory: what can be told of every text. *)
From Verif Require Import Base JsonModel JsonSpec ValueSpec ValueModel ValueFaultModel JsonHeapSpec JsonHeapModel JsonOomModel JsonProof JsonProof2 JsonHeapProof2 JsonHeapProof3 JsonHeapProof5 JsonOomProof3.
From Verif Require JsonOomProof8.
From Coq Require Import List NArith ZArith Bool Lia Arith.
Import ListNotations.

(** destruction does not throw and does not exit *)
Definition calm {A} (o : outcome A) : Prop := (forall e, o <> Throw e) /\ (forall k, o <> Exit k).
Lemma calm_ret {A} (a : A) : calm (Ret a).
Proof. split; discriminate. Qed.
Lemma calm_ub {A} u : calm (UB u : outcome A).
Proof. split; discriminate. Qed.
Lemma calm_div {A} : calm (Diverge : outcome A).
Proof. split; discriminate. Qed.
Lemma calm_bind {A B} (o : outcome A) (k : A -> outcome B) : calm o -> (forall a, calm (k a)) -> calm (bind o k).
Proof. intros [H1 H2] Hk. destruct o as [a|e|u| |n]; cbn [bind]; [apply Hk|now destruct (H1 e)|apply calm_ub|apply calm_div|now destruct (H2 n)]. Qed.
Ltac calm1 := repeat first
  [ apply calm_ret | apply calm_ub | apply calm_div | assumption
  | match goal with |- calm (bind _ _) => apply calm_bind; [|intros] end
  | match goal with |- calm (match ?x with _ => _ end) => destruct x end ].
Lemma calm_live h a : calm (live h a).
Proof. unfold live. calm1. Qed.
Lemma calm_deref h p : calm (deref h p).
Proof. unfold deref. calm1. apply calm_live. Qed.
Lemma calm_load h l : calm (load h l).
Proof. unfold load. destruct l; calm1; apply calm_live. Qed.
Lemma calm_store h l v : calm (store h l v).
Proof. unfold store. destruct l; calm1; apply calm_live. Qed.
Lemma calm_release h a : calm (release h a).
Proof. unfold release. calm1; apply calm_live. Qed.
Lemma calm_destroy f : forall h v, calm (destroy f h v).
Proof.
  induction f as [|f IH]; intros h v; cbn [destroy]; [apply calm_div|]. assert (HL : forall vs h, calm (destroy_list (destroy f) h vs)). { induction vs as [|w vs IHv]; intros h0; cbn [destroy_list]; [apply calm_ret|]. apply calm_bind; [apply IH|]. intros h1. apply IHv. }
  destruct (v_kind v); destruct (v_hold v); calm1; try apply calm_deref; try apply calm_release; try apply HL.
Qed.
Lemma calm_end s x : calm (step_op s (Destroy x)).
Proof. cbn [step_op]. unfold find_place. cbn [fst snd locate]. calm1; try apply calm_load; try apply calm_destroy; apply calm_store. Qed.
Lemma calm_unwind l : forall s, calm (unwind s l).
Proof. induction l as [|x l IH]; intros s; cbn [unwind]; [apply calm_ret|]. destruct (is_alive _ _); [|apply IH]. apply calm_bind; [apply calm_end|exact IH]. Qed.

Section Right.
  Variable alloc : nat -> bool.
  Variable grows : nat -> bool.
  Variable lay : layout.
  Notation R := (layout_lits lay).

  Theorem right text n objs prog e log c : 7 + 2 * length text <= n -> arun (env0 n) prog = Some (e, log) -> (forall x, is_alive (e_alive e) x = false) ->
    exists st, run (state0 n objs) prog = Ret (st, log) /\
      (forall st1 c', base_make_a alloc grows lay text st c = Ret (st1, c', true) ->
         exists a r, gval R text a r /\ content st1 v_args = Ret (denote a) /\ content st1 v_rets = Ret (TArr []) /\
           (forall x, x <> v_args -> x <> v_rets -> is_alive (s_alive st1) x = false)) /\
      (forall k, base_make_a alloc grows lay text st c = Exit k -> k = 87%Z /\ forall a r, ~ gval R text a r) /\
      (forall x, base_make_a alloc grows lay text st c <> Throw x).
  Proof.
    intros Hn Hr Hfr. destruct (base_ok grows lay text n objs prog e log Hn Hr Hfr) as (st & E & Hno & Hok). exists st. split; [exact E|].
    pose proof (base_near alloc grows lay text st c) as HN. unfold base_make_a. destruct (f_base alloc grows lay text _) as [c1 o].
    assert (Hcase : (exists a r, gval R text a r) \/ (forall a r, ~ gval R text a r)).
    { destruct (kparse_value_ok (K_heap grows) lay (S (length text)) text ltac:(lia)) as [(x & r & Hg & _)|(Hx & _)]; [left; eauto|right; exact Hx]. }
    assert (Hend : forall x : nat, calm (bind (unwind (h_mem (f_h c1)) (passed (f_h c1))) (fun st' => Ret (st', x, false))) /\ forall st1 c', bind (unwind (h_mem (f_h c1)) (passed (f_h c1))) (fun st' => Ret (st', x, false)) <> Ret (st1, c', true)).
    { intros x. split; [apply calm_bind; [apply calm_unwind|intros; apply calm_ret]|]. intros st1 c'. destruct (unwind _ _); cbn [bind]; discriminate. }
    destruct o as [[]|x|u| |k]; cbn [near_base] in HN.
    - split; [|split; discriminate]. intros st1 c' [= <- _]. destruct Hcase as [(a & r & Hg)|Hx]; [|specialize (Hno Hx); congruence]. destruct (Hok a r Hg) as (s1 & s2 & Eb & H1 & H2 & H3 & _). assert (s1 = h_mem (f_h c1)) as -> by congruence. eauto 8.
    - destruct (Hend (f_n c1)) as [[Hc1 Hc2] Hc3]. destruct HN as [->|HN].
      + split; [intros st1 c' H; now destruct (Hc3 st1 c')|]. split; [intros k H; now destruct (Hc2 k)|exact Hc1].
      + exfalso. destruct Hcase as [(a & r & Hg)|Hx]; [destruct (Hok a r Hg) as (s1 & s2 & Eb & _); congruence|specialize (Hno Hx); congruence].
    - split; [|split]; discriminate.
    - split; [|split]; discriminate.
    - split; [discriminate|]. split; [|discriminate]. intros k' [= <-]. destruct Hcase as [(a & r & Hg)|Hx]; [destruct (Hok a r Hg) as (s1 & s2 & Eb & _); congruence|]. specialize (Hno Hx). split; [congruence|exact Hx].
  Qed.

  Theorem enough text n objs prog e log c : (forall k, alloc k = true) -> 7 + 2 * length text <= n -> arun (env0 n) prog = Some (e, log) -> (forall x, is_alive (e_alive e) x = false) ->
    exists st, run (state0 n objs) prog = Ret (st, log) /\
      ((forall a r, ~ gval R text a r) -> base_make_a alloc grows lay text st c = Exit 87) /\
      (forall a r, gval R text a r -> exists st1 c', base_make_a alloc grows lay text st c = Ret (st1, c', true) /\ base_make grows lay text st = Ret st1 /\
         content st1 v_args = Ret (denote a) /\ content st1 v_rets = Ret (TArr [])).
  Proof.
    intros yes Hn Hr Hfr. destruct (base_ok grows lay text n objs prog e log Hn Hr Hfr) as (st & E & Hno & Hok). exists st. split; [exact E|].
    pose proof (JsonOomProof8.base_same alloc yes grows lay text st c) as HN. unfold base_make_a. destruct (f_base alloc grows lay text _) as [c1 o]. split.
    - intros Hx. specialize (Hno Hx). destruct o as [[]|x|u| |k]; cbn in HN; try congruence.
    - intros a r Hg. destruct (Hok a r Hg) as (s1 & s2 & Eb & H1 & H2 & _). destruct o as [[]|x|u| |k]; cbn in HN; try congruence. assert (s1 = h_mem (f_h c1)) as -> by congruence. eauto 8.
  Qed.
End Right.

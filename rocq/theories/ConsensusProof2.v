(** Proofs about the parameters that consensus.py makes. *)
From Verif Require Import Base JsonModel ConsensusModel ConsensusProof ConsensusSpec.
From Coq Require Import List Arith NArith Bool Lia.
From Coq.Init Require Import Byte.
From Coq.Strings Require Import Byte.
Import ListNotations.

Section Expand.
  Variables rands randh : nat -> nat -> bytes -> option bytes.
  Variable file : bytes -> option bytes.

  Lemma tl_skipn (l : bytes) : tl l = skipn 1 l.
  Proof. now destruct l. Qed.

  Lemma expand_one i j a s : expand_arg rands randh file i j a = Some s <-> asked rands randh file i j a s.
  Proof.
    unfold expand_arg. destruct a as [|c r].
    - split; [discriminate|]. destruct 1; discriminate.
    - rewrite tl_skipn. change (skipn 1 r) with (skipn 2 (c :: r)). split.
      + destruct (beqb_spec c x73) as [->|_]; [intros H; now apply asked_string|].
        destruct (beqb_spec c x66) as [->|_].
        * destruct (file (skipn 2 (x66 :: r))) as [text|] eqn:Ef; [|discriminate]. cbn [option_map]. intros H. injection H as H.
          apply rstrip_iff in H as [[n H1] H2]. now apply (asked_file _ _ _ _ _ _ _ text n).
        * destruct (beqb_spec c x68) as [->|_]; [intros H; now apply asked_hex|discriminate].
      + intros [H1 H2|H1 H2|text n H1 H2 H3 H4]; cbn [nth_error] in H1; injection H1 as ->.
        * exact H2.
        * exact H2.
        * change (beqb x66 x73) with false. change (beqb x66 x66) with true. cbv iota. rewrite H2. cbn [option_map]. f_equal. apply rstrip_iff. eauto.
  Qed.

  Lemma expand_all i args : forall j ss, expand_args rands randh file i j args = Some ss <->
    length ss = length args /\ forall k a s, nth_error args k = Some a -> nth_error ss k = Some s -> asked rands randh file i (j + k) a s.
  Proof.
    induction args as [|a args IH]; intros j ss; cbn [expand_args].
    - split.
      + intros H. injection H as <-. split; [reflexivity|]. intros k a s H. now destruct k.
      + intros [H _]. destruct ss; [reflexivity|discriminate].
    - split.
      + intros H. destruct (expand_arg rands randh file i j a) as [x|] eqn:Ex; [|discriminate]. cbn [optbind] in H.
        destruct (expand_args rands randh file i (S j) args) as [l|] eqn:El; [|discriminate]. injection H as <-.
        apply IH in El as [H1 H2]. split; [cbn; lia|]. intros [|k] b s Hb Hs; cbn [nth_error] in Hb, Hs.
        * injection Hb as <-. injection Hs as <-. rewrite Nat.add_0_r. now apply expand_one.
        * rewrite Nat.add_succ_r. now apply (H2 k).
      + intros [H1 H2]. destruct ss as [|x ss]; [discriminate|]. injection H1 as H1.
        pose proof (H2 0 a x eq_refl eq_refl) as Hx. rewrite Nat.add_0_r in Hx. apply expand_one in Hx. rewrite Hx. cbn [optbind].
        replace (expand_args rands randh file i (S j) args) with (Some ss); [reflexivity|]. symmetry. apply IH. split; [exact H1|].
        intros k b s Hb Hs. specialize (H2 (S k) b s Hb Hs). now rewrite Nat.add_succ_r in H2.
  Qed.

  Lemma start_test_iff i op args params :
    start_test rands randh file i (op :: args) = Some (op, params) <->
    exists ss, length ss = length args /\ (forall k a s, nth_error args k = Some a -> nth_error ss k = Some s -> asked rands randh file i k a s) /\
      params = params_text ss.
  Proof.
    cbn [start_test]. split.
    - intros H. destruct (expand_args rands randh file i 0 args) as [ss|] eqn:E; [|discriminate]. injection H as <-.
      apply expand_all in E as [H1 H2]. now exists ss.
    - intros (ss & H1 & H2 & ->). replace (expand_args rands randh file i 0 args) with (Some ss); [reflexivity|]. symmetry. now apply expand_all.
  Qed.

  Lemma asked_arrive lay i op args params :
    start_test rands randh file i (op :: args) = Some (op, params) -> (N.of_nat (length params) < 2^28)%N ->
    exists ss, length ss = length args /\ (forall k a s, nth_error args k = Some a -> nth_error ss k = Some s -> asked rands randh file i k a s) /\
      (parse lay params = Ret (true, JArr (map JStr ss)) <-> Forall plain ss).
  Proof. intros H Hl. apply start_test_iff in H as (ss & H1 & H2 & ->). exists ss. repeat split; auto; now apply params_ok. Qed.
End Expand.

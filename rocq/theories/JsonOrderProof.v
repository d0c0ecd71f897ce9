(** Texts with the same contents; the order of printed members. *)
From Verif Require Import Base HashSpec HashModel HashProof HashProof2 HasherModel StringMapSpec StringMapModel StringMapProof StringMapProof2
  JsonSpec JsonModel JsonDenotes JsonProof JsonProof2 JsonProof3 JsonProof4 JsonProof5 EniModel.
From Coq Require Import List NArith ZArith Bool Lia Permutation.
From Coq.Init Require Import Byte.
Import ListNotations.

Lemma same_contents l1 l2 s1 s2 a r1 r2 :
  (N.of_nat (length s1) < 2^28)%N -> (N.of_nat (length s2) < 2^28)%N ->
  gval (readable l1) s1 a r1 -> gval (readable l2) s2 a r2 ->
  exists v, parse l1 s1 = Ret (true, v) /\ parse l2 s2 = Ret (true, v).
Proof.
  intros H1 H2 G1 G2. change (readable l1) with (layout_lits l1) in G1. change (readable l2) with (layout_lits l2) in G2.
  destruct (parse_ok l1 s1 H1) as [(a1 & q1 & v1 & E1 & B1 & _ & P1)|(No & _)]; [|exfalso; eapply No; eauto].
  destruct (parse_ok l2 s2 H2) as [(a2 & q2 & v2 & E2 & B2 & _ & P2)|(No & _)]; [|exfalso; eapply No; eauto].
  destruct (gval_det _ _ _ _ _ _ E1 G1) as [-> _]. destruct (gval_det _ _ _ _ _ _ E2 G2) as [-> _].
  rewrite B1 in B2. injection B2 as <-. eauto.
Qed.

Lemma same_calls c l1 l2 b1 b2 a r1 r2 :
  (N.of_nat (length (cstr b1)) < 2^28)%N -> (N.of_nat (length (cstr b2)) < 2^28)%N ->
  gval (readable l1) (cstr b1) a r1 -> gval (readable l2) (cstr b2) a r2 ->
  c_gas c l1 b1 = c_gas c l2 b2 /\ c_run c l1 b1 = c_run c l2 b2.
Proof.
  intros H1 H2 G1 G2. destruct (same_contents _ _ _ _ _ _ _ H1 H2 G1 G2) as (v & P1 & P2). unfold c_gas, c_run, construct. now rewrite P1, P2.
Qed.

(** the text of one member *)
Definition member_text (e : bytes * jvalue) (x : bytes) : Prop := exists p, print (snd e) = Ret p /\ x = fst e ++ x3a :: p.

Lemma sequence_members es : forall ts, sequence (map (fun e : bytes * jvalue => p <- print (snd e) ;; Ret (fst e ++ x3a :: p)) es) = Ret ts -> Forall2 member_text es ts.
Proof.
  induction es as [|e es IH]; intros ts H; cbn [map sequence] in H.
  - injection H as <-. constructor.
  - apply bind_ret in H as (x & Hx & H). apply bind_ret in H as (l & Hl & H). injection H as <-. apply bind_ret in Hx as (p & Hp & Hx). injection Hx as <-.
    constructor; [exists p; auto|auto].
Qed.

Lemma print_members h t answers :
  (forall k v, In (MSet k v) h -> buildable (fun _ => True) v) ->
  (forall o k, In o h -> mop_key o = Some k -> (N.of_nat (length k) < 65536)%N) ->
  (N.of_nat (length h) <= 2^28)%N -> sm_run JUndef (sm_new 8) h = Ret (t, answers) ->
  exists es ts, Permutation (fst (map_run JUndef [] h)) es /\ Forall2 member_text es ts /\
    print (JObj t) = Ret (x7b :: x0a :: commas ts ++ [x0a; x7d]).
Proof.
  intros Hv Hk Hl Hr. destruct (built_obj h t answers Hk Hl Hr) as ((_ & _ & HP) & HC & _).
  destruct (buildable_print (fun _ => True) (JObj t)) as (tx & Htx). { eapply B_obj; eauto. }
  rewrite print_obj in * by exact HC. apply bind_ret in Htx as (ts & Hts & _). exists (tents t), ts. split; [exact HP|]. split; [now apply sequence_members|]. now rewrite Hts.
Qed.

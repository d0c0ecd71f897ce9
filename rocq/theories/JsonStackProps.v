(** Property C96: the call stack that printing, copying and destroying a value need. *)
From Verif Require Import Base JsonModel JsonSpec JsonDenotes JsonDepthSpec JsonDepthModel JsonStackSpec JsonStackModel JsonStackProof.
From Coq Require Import List NArith ZArith Bool Lia.
From Coq.Init Require Import Byte.
Import ListNotations.
Local Open Scope nat_scope.

(** A stack with room for as many calls as the text has levels, which parsing the text needs as well (C70), is enough to
    print the value and to copy it; one with room for the levels down to the first array is enough to destroy it. *)
Theorem C96_enough : forall lay s a r, (N.of_nat (length s) < 2^28)%N -> gval (readable lay) s a r -> short_keys a ->
  exists v, parse lay s = Ret (true, v) /\
    (forall room, levels a <= room -> print_in room v = print v /\ copy_in room v = Ret v) /\
    (forall room, object_levels a <= room -> destroy_in room v = Ret tt).
Proof.
  intros lay s a r Hs Hg Hk. destruct (stack_enough lay s a r Hs Hg Hk) as (v & H1 & H2 & H3 & _). eauto.
Qed.
Print Assumptions C96_enough.

(** Less is not enough: unless the text repeats a key, the process is killed. *)
Theorem C96_no_less : forall lay s a r, (N.of_nat (length s) < 2^28)%N -> gval (readable lay) s a r -> short_keys a -> no_repeats a ->
  exists v, parse lay s = Ret (true, v) /\
    (forall room, room < levels a -> print_in room v = Diverge /\ copy_in room v = Diverge) /\
    (forall room, room < object_levels a -> destroy_in room v = Diverge).
Proof.
  intros lay s a r Hs Hg Hk Hn. destruct (stack_enough lay s a r Hs Hg Hk) as (v & H1 & _ & _ & H4). exists v. split; auto.
  split; intros room Hr; now apply (H4 Hn room).
Qed.
Print Assumptions C96_no_less.

Ltac spell_chars := repeat (first [apply GC_end | apply GC_plain; [discriminate|discriminate|]]).
Ltac spell_key := eapply (GK [] _ _ []); [constructor|spell_chars|constructor].

(** {k:{j:[[]]}} with the keys quoted: four levels, of which two are objects above an array. *)
Definition c96_text : bytes := [x7b; x22; x6b; x22; x3a; x7b; x22; x6a; x22; x3a; x5b; x5b; x5d; x5d; x7d; x7d].
Definition c96_ast : ast := AObj [([x6b], AObj [([x6a], AArr [AArr []])])].
(** {k:[[]],k:[]}: the first member is overwritten. *)
Definition c96_twice : bytes :=
  [x7b; x22; x6b; x22; x3a; x5b; x5b; x5d; x5d; x2c; x22; x6b; x22; x3a; x5b; x5d; x7d].
Definition c96_ast2 : ast := AObj [([x6b], AArr [AArr []]); ([x6b], AArr [])].

Example C96_example_texts : forall lits,
  gval lits c96_text c96_ast [] /\ short_keys c96_ast /\ no_repeats c96_ast /\ levels c96_ast = 4 /\ object_levels c96_ast = 3 /\
  gval lits c96_twice c96_ast2 [] /\ short_keys c96_ast2 /\ levels c96_ast2 = 3.
Proof.
  intros lits. split; [|split; [|split; [|split; [|split; [|split; [|split]]]]]]; try reflexivity.
  - eapply (G_obj lits []); [constructor|]. eapply (GM_last lits _ _ _ _ []); [spell_key| |constructor].
    eapply (G_obj lits []); [constructor|]. eapply (GM_last lits _ _ _ _ []); [spell_key| |constructor].
    eapply (G_arr lits []); [constructor|]. eapply (GE_last lits _ _ []); [|constructor]. apply (G_arr0 lits [] []); constructor.
  - cbn. repeat (constructor; try lia).
  - cbn. repeat (constructor; try easy).
  - eapply (G_obj lits []); [constructor|]. eapply (GM_cons lits _ _ _ _ []); [spell_key| |constructor|].
    + eapply (G_arr lits []); [constructor|]. eapply (GE_last lits _ _ []); [|constructor]. apply (G_arr0 lits [] []); constructor.
    + eapply (GM_last lits _ _ _ _ []); [spell_key| |constructor]. apply (G_arr0 lits [] []); constructor.
  - cbn. repeat (constructor; try lia).
Qed.

Example C96_example : let lay := mkL 1000 2000 2010 in
  match parse lay c96_text with
  | Ret (true, v) => print_in 3 v = Diverge /\ print_in 4 v = print v /\ copy_in 3 v = Diverge /\ copy_in 4 v = Ret v /\
                     destroy_in 2 v = Diverge /\ destroy_in 3 v = Ret tt
  | _ => False
  end /\
  match parse lay c96_twice with
  | Ret (true, v) => print_in 1 v = Diverge /\ print_in 2 v = print v
  | _ => False
  end.
Proof. vm_compute. repeat split. Qed.

(** Property C70: the call stack that parsing needs. *)
From Verif Require Import Base JsonModel JsonSpec JsonDenotes JsonDepthSpec JsonDepthModel JsonDepthProof.
From Coq Require Import List NArith ZArith Bool Lia.
From Coq.Init Require Import Byte.
Import ListNotations.

(** The full statement: some fixed number of calls is enough for every text,

      exists room, forall lay s, parse_in room lay s = parse lay s

    which is false, see [C70_stack_refuted].  What holds: room for one call more than the text has opening brackets and
    braces is enough, for any text, of the grammar or not; and for a text of the grammar room for as many calls as it has
    levels. *)
Theorem C70_stack_partial :
  (forall room lay s, opens s < room -> parse_in room lay s = parse lay s) /\
  (forall room lay s a r, (N.of_nat (length s) < 2^28)%N -> gval (readable lay) s a r -> levels a <= room ->
     parse_in room lay s = parse lay s).
Proof.
  split.
  - intros room lay s. apply parse_in_enough.
  - intros room lay s a r Hs Hg Hr. rewrite (parse_in_exact lay room s a r Hs Hg). apply Nat.leb_le in Hr. now rewrite Hr.
Qed.
Print Assumptions C70_stack_partial.

(** Neither bound can be lowered.  Whatever the room, there is a text of as many bytes, all opening brackets, that uses it
    up; and every text of the grammar with more levels does, such as [nest]: arrays in arrays, two bytes a level. *)
Theorem C70_stack_refuted :
  (forall room lay, opens (repeat x5b room) = room /\ parse_in room lay (repeat x5b room) = Diverge) /\
  (forall room lay s a r, (N.of_nat (length s) < 2^28)%N -> gval (readable lay) s a r -> room < levels a ->
     parse_in room lay s = Diverge) /\
  (forall room lits, length (nest (S room)) = 2 * S room /\ exists a, gval lits (nest (S room)) a [] /\ levels a = S room).
Proof.
  split; [|split].
  - intros room lay. split; [|apply parse_in_run]. induction room as [|n IH]; auto. change (S (opens (repeat x5b n)) = S n). now rewrite IH.
  - intros room lay s a r Hs Hg Hr. rewrite (parse_in_exact lay room s a r Hs Hg). apply Nat.leb_gt in Hr. now rewrite Hr.
  - intros room lits. split; [unfold nest; rewrite app_length, !repeat_length; lia|].
    exists (Nat.iter room (fun a => AArr [a]) (AArr [])). split; [|apply nest_levels].
    pose proof (nest_grammar lits room []) as H. rewrite app_nil_r in H. exact H.
Qed.
Print Assumptions C70_stack_refuted.

(** An array in an object in an array: three levels, three opening brackets. *)
Example C70_three_levels :
  let lay := mkL 1000 1 2 in
  let s := [x5b; x7b; x22; x6b; x22; x3a; x5b; x5d; x7d; x2c; x37; x5d] in
  opens s = 3 /\ (exists a, gval (readable lay) s a [] /\ levels a = 3) /\
  parse_in 2 lay s = Diverge /\ (exists v, parse_in 3 lay s = Ret (true, v)).
Proof.
  cbv zeta. split; [reflexivity|]. split; [|split; [vm_compute; reflexivity|eexists; vm_compute; reflexivity]].
  exists (AArr [AObj [([x6b], AArr [])]; AInt 7]). split; [|reflexivity].
  apply (G_arr _ [] _ _ []); [constructor|]. eapply (GE_cons _ _ _ []); [| constructor |].
  - apply (G_obj _ [] _ _ _); [constructor|]. eapply (GM_last _ _ _ _ _ []); [| |constructor].
    + apply (GK [] _ _ []); [constructor| |constructor]. apply GC_plain; [discriminate|discriminate|]. apply GC_end.
    + apply (G_arr0 _ [] []); constructor.
  - eapply (GE_last _ _ _ []); [|constructor]. apply (G_nat _ [] _ 7 _); [constructor|].
    apply (GN_pos x37 [] [x5d]); [split; discriminate|discriminate|constructor|]. intros (c & q & [= <- <-] & H1 & H2). vm_compute in H2. now apply H2.
Qed.

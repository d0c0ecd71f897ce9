(** Properties C77 and C78: spellings of the same contents; the printed members of objects. *)
From Coq Require Import String.
From Verif Require Import Base HashSpec HashModel StringMapSpec StringMapModel JsonSpec JsonModel JsonDenotes EniModel JsonOrderProof.
From Coq Require Import List NArith ZArith Bool Lia Permutation.
From Coq.Init Require Import Byte.
From Coq.Strings Require Import Byte.
Import ListNotations.
Local Open Scope list_scope.

Definition T (s : string) : bytes := list_byte_of_string s.
Definition q : bytes := [x22].

(** ** C77: the spelling of an argument text does not matter *)

(** Two texts with the same contents [a], however they are spelt (white space, escapes, what follows the value) and
    wherever they lie in memory, are parsed to one and the same value, which therefore prints as the same text. *)
Theorem C77_same_value :
  forall l1 l2 s1 s2 a r1 r2,
    (N.of_nat (length s1) < 2^28)%N -> (N.of_nat (length s2) < 2^28)%N ->
    gval (readable l1) s1 a r1 -> gval (readable l2) s2 a r2 ->
    exists v, parse l1 s1 = Ret (true, v) /\ parse l2 s2 = Ret (true, v).
Proof. exact same_contents. Qed.
Print Assumptions C77_same_value.

(** No operation can tell them apart. *)
Theorem C77_same_answers :
  forall c l1 l2 b1 b2 a r1 r2,
    (N.of_nat (length (cstr b1)) < 2^28)%N -> (N.of_nat (length (cstr b2)) < 2^28)%N ->
    gval (readable l1) (cstr b1) a r1 -> gval (readable l2) (cstr b2) a r2 ->
    c_gas c l1 b1 = c_gas c l2 b2 /\ c_run c l1 b1 = c_run c l2 b2.
Proof. exact same_calls. Qed.
Print Assumptions C77_same_answers.

(** two spellings of an array with the string A *)
Definition short_text : bytes := T "[" ++ q ++ T "A" ++ q ++ T "]".
Definition long_text : bytes := T " [ " ++ q ++ [x5c] ++ T "u0041" ++ q ++ T " ] x".
Example C77_example :
  forall lits, gval lits short_text (AArr [AStr (T "A")]) [] /\ gval lits long_text (AArr [AStr (T "A")]) (T " x") /\
  forall lay, exists v, parse lay short_text = Ret (true, v) /\ parse lay long_text = Ret (true, v).
Proof.
  assert (H : forall lits, gval lits short_text (AArr [AStr (T "A")]) [] /\ gval lits long_text (AArr [AStr (T "A")]) (T " x")).
  { intros lits. split.
    - apply (G_arr lits [] (q ++ T "A" ++ q ++ T "]")); [constructor|].
      apply (GE_last lits _ _ []); [|constructor]. apply (G_str lits []); [constructor|].
      apply GC_plain; [discriminate|discriminate|]. constructor.
    - apply (G_arr lits (T " ") (T " " ++ q ++ [x5c] ++ T "u0041" ++ q ++ T " ] x")); [repeat constructor|].
      apply (GE_last lits _ _ (T " ")); [|repeat constructor]. apply (G_str lits (T " ") ([x5c] ++ T "u0041" ++ q ++ T " ] x")); [repeat constructor|].
      apply (GC_code x30 x30 x34 x31 0 0 4 1); try reflexivity. constructor. }
  intros lits. destruct (H lits) as [H1 H2]. split; [exact H1|]. split; [exact H2|].
  intros lay. destruct (H (readable lay)) as [H3 H4]. eapply C77_same_value; eauto; reflexivity.
Qed.

(** ** C78: printed objects *)

(** An object filled by any history of map operations prints each of its members exactly once, as key, colon and the text
    of the value, in some order.  Missing: that the order is determined by the members. *)
Theorem C78_members_partial :
  forall h t answers,
    (forall k v, In (MSet k v) h -> buildable (fun _ => True) v) ->
    (forall o k, In o h -> mop_key o = Some k -> (N.of_nat (length k) < 65536)%N) ->
    (N.of_nat (length h) <= 2^28)%N ->
    sm_run JUndef (sm_new 8) h = Ret (t, answers) ->
    exists es ts,
      Permutation (fst (map_run JUndef [] h)) es /\
      Forall2 (fun e x => exists p, print (snd e) = Ret p /\ x = fst e ++ T ":" ++ p) es ts /\
      print (JObj t) = Ret (T "{" ++ [x0a] ++ commas ts ++ [x0a] ++ T "}").
Proof. exact print_members. Qed.
Print Assumptions C78_members_partial.

(** It is not: the same two members added in two orders print as two texts. *)
Theorem C78_order_refuted :
  exists (m1 m2 : bytes * jvalue) t12 t21 x12 x21,
    fst m1 <> fst m2 /\
    sm_run JUndef (sm_new 8) [MSet (fst m1) (snd m1); MSet (fst m2) (snd m2)] = Ret (t12, [MUnit; MUnit]) /\
    sm_run JUndef (sm_new 8) [MSet (fst m2) (snd m2); MSet (fst m1) (snd m1)] = Ret (t21, [MUnit; MUnit]) /\
    print (JObj t12) = Ret x12 /\ print (JObj t21) = Ret x21 /\ x12 <> x21.
Proof.
  exists (T "a", JInt 1), (T "r", JInt 2). cbn [fst snd]. do 4 eexists. split; [discriminate|].
  split; [vm_compute; reflexivity|]. split; [vm_compute; reflexivity|]. split; [vm_compute; reflexivity|]. split; [vm_compute; reflexivity|]. discriminate.
Qed.
Print Assumptions C78_order_refuted.

Example C78_example :
  match sm_run JUndef (sm_new 8) [MSet (T "a") (JInt 1); MSet (T "r") (JInt 2); MErase (T "a"); MSet (T "b") (JArr [])] with
  | Ret (t, _) => print (JObj t) = Ret (T "{" ++ [x0a] ++ T "r:2,b:[]" ++ [x0a] ++ T "}") \/ print (JObj t) = Ret (T "{" ++ [x0a] ++ T "b:[],r:2" ++ [x0a] ++ T "}")
  | _ => False
  end.
Proof. vm_compute. auto. Qed.

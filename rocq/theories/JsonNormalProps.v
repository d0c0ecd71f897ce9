(** Property C90: printed texts are in normal form, and texts in normal form come back unchanged. *)
From Coq Require Import String.
From Verif Require Import Base HashSpec HashModel StringMapModel JsonSpec JsonModel JsonDenotes JsonProof5 JsonNormalSpec JsonNormalProof.
From Coq Require Import List NArith ZArith Bool Lia.
From Coq.Init Require Import Byte.
From Coq.Strings Require Import Byte.
Import ListNotations.
Local Open Scope list_scope.

(** Values made of integers, booleans, strings and arrays.  Missing: objects, see the refutation. *)
Theorem C90_normal_partial :
  forall v, simple v -> exists t, print v = Ret t /\ normal t.
Proof. intros v H. destruct (buildable_print (fun _ => True) v) as (t & Ht); [|exists t; split; [exact Ht|exact (print_normal v H t Ht)]].
  induction H as [| | |l _ IH]; constructor; auto.
Qed.
Print Assumptions C90_normal_partial.

(** no object prints in normal form *)
Theorem C90_normal_refuted :
  forall t tx, print (JObj t) = Ret tx -> ~ normal tx.
Proof. exact object_not_normal. Qed.
Print Assumptions C90_normal_refuted.

(** A text in normal form is accepted, and the value it is parsed to prints as that text, byte for byte. *)
Theorem C90_unchanged :
  forall lay s, (N.of_nat (length s) < 2^28)%N -> good_layout lay -> normal s ->
    exists v, simple v /\ parse lay s = Ret (true, v) /\ print v = Ret s.
Proof. exact normal_back. Qed.
Print Assumptions C90_unchanged.

(** a text in normal form, its value, and another text of the same value *)
Example C90_example :
  let lay := mkL 1000 10 20 in
  let s := list_byte_of_string "[-10,true,[0,[]]," ++ [x22; x61; x5c; x22; x5c] ++ list_byte_of_string "u001F /" ++ [x22; x5d] in
  let s' := list_byte_of_string " [-10 , true,[-0,[ ]]," ++ [x22] ++ list_byte_of_string "a" ++ [x5c; x22; x5c] ++ list_byte_of_string "u001f \/" ++ [x22; x5d] in
  normal s /\ exists v, parse lay s = Ret (true, v) /\ print v = Ret s /\ parse lay s' = Ret (true, v).
Proof.
  cbv zeta. set (lay := mkL 1000 10 20). set (s := _ ++ _). set (s' := _ ++ _).
  set (v := JArr [JInt (-10); JBool true; JArr [JInt 0; JArr []]; JStr [x61; x22; x1f; x20; x2f]]).
  assert (Hv : print v = Ret s) by (vm_compute; reflexivity). split.
  - destruct (C90_normal_partial v) as (t & Ht & Hn).
    + constructor. intros x [<-|[<-|[<-|[<-|[]]]]]; constructor; [vm_compute; reflexivity|].
      intros x [<-|[<-|[]]]; constructor; [vm_compute; reflexivity|]. intros x [].
    + rewrite Hv in Ht. injection Ht as <-. exact Hn.
  - exists v. split; [vm_compute; reflexivity|]. split; [exact Hv|]. vm_compute. reflexivity.
Qed.

(** Property C92: how long the text printed for a parsed text can be. *)
From Coq Require Import String.
From Verif Require Import Base HashSpec HashModel JsonSpec JsonModel JsonLengthProof.
From Coq Require Import List NArith ZArith Bool Lia.
From Coq.Init Require Import Byte.
From Coq.Strings Require Import Byte.
Import ListNotations.
Local Open Scope list_scope.

(** The value a text is parsed to prints as a text at most six times as long, objects and keys of any length included. *)
Theorem C92_length :
  forall lay s v t, (N.of_nat (length s) < 2^28)%N -> parse lay s = Ret (true, v) -> print v = Ret t ->
    length t <= 6 * length s.
Proof. intros lay s v t Hl. apply printed_length; [exact Hl|now left]. Qed.
Print Assumptions C92_length.

(** At most three times as long if the text has no control characters (bytes below 32). *)
Theorem C92_length_plain :
  forall lay s v t, (N.of_nat (length s) < 2^28)%N -> (forall c, In c s -> (32 <= bval c)%N) ->
    parse lay s = Ret (true, v) -> print v = Ret t ->
    length t <= 3 * length s.
Proof. intros lay s v t Hl Hc. apply printed_length; [exact Hl|right; split; [reflexivity|exact Hc]]. Qed.
Print Assumptions C92_length_plain.

(** Neither factor can be lowered: n control characters between quotes, or n escapes, print as 6 n + 2 bytes. *)
Theorem C92_sharp :
  forall lay n, (N.of_nat (n + 2) < 2^28)%N -> exists s v t,
    length s = n + 2 /\ parse lay s = Ret (true, v) /\ print v = Ret t /\ length t = 6 * n + 2.
Proof.
  intros lay n Hn. destruct (long_print lay [x01] x01 n) as (v & t & H1 & H2 & H3); [intros; apply GC_plain; auto; discriminate|reflexivity|cbn [length]; lia|].
  exists (x22 :: concat (repeat [x01] n) ++ [x22]), v, t. split; [|auto]. cbn [length]. rewrite app_length, times_length. cbn [length]. lia.
Qed.
Print Assumptions C92_sharp.

Theorem C92_sharp_plain :
  forall lay n, (N.of_nat (2 * n + 2) < 2^28)%N -> exists s v t,
    length s = 2 * n + 2 /\ (forall c, In c s -> (32 <= bval c)%N) /\ parse lay s = Ret (true, v) /\ print v = Ret t /\ length t = 6 * n + 2.
Proof.
  intros lay n Hn. destruct (long_print lay [x5c; x6e] x0a n) as (v & t & H1 & H2 & H3); [intros; apply GC_escape; auto; cbn; auto 8|reflexivity|cbn [length]; lia|].
  exists (x22 :: concat (repeat [x5c; x6e] n) ++ [x22]), v, t. split; [|split; [|auto]].
  - cbn [length]. rewrite app_length, times_length. cbn [length]. lia.
  - intros c [<-|Hc]; [discriminate|]. apply in_app_iff in Hc as [Hc|[<-|[]]]; [|discriminate].
    apply in_concat in Hc as (u & Hu & Hc). apply repeat_spec in Hu. subst u. destruct Hc as [<-|[<-|[]]]; discriminate.
Qed.
Print Assumptions C92_sharp_plain.

(** a text with an object and a repeated key, printed *)
Example C92_example :
  let s := list_byte_of_string "{" ++ [x22; x61; x22] ++ list_byte_of_string ":[0]," ++ [x22; x61; x22] ++ list_byte_of_string ":" ++ [x22; x0a; x22] ++ list_byte_of_string "}" in
  exists v, parse (mkL 1000 10 20) s = Ret (true, v) /\ length s = 17 /\
    print v = Ret (list_byte_of_string "{" ++ [x0a] ++ list_byte_of_string "a:" ++ [x22; x5c] ++ list_byte_of_string "u000A" ++ [x22; x0a] ++ list_byte_of_string "}").
Proof. cbv zeta. eexists. split; [vm_compute; reflexivity|]. split; vm_compute; reflexivity. Qed.

(** Property C99: following a path into a document with the JSON example, one request for each step.

    As in JsonExProps.v, jsmn is assumed to give the documented tokens for the document and its parts ([jsmn_knows]),
    and the conversion of an s256 to int to give the number itself where it is an int. *)
From Coq Require Import String.
From Verif Require Import Base JsonSpec JsonModel JsonDenotes JsonProof3 JsonProof4 EniModel EniProof EniProps JsonExSpec JsonExModel JsonExProof3 JsonExProps JsonChainSpec JsonChainProof JsonChainProof2.
From Coq Require Import List NArith ZArith Bool Lia.
From Coq.Init Require Import Byte.
From Coq.Strings Require Import Byte.
Import ListNotations.
Local Open Scope list_scope.

(** ** C99 *)

(** a client that goes on with the range of each answer ends with the range of the part the path leads to, and the
    text there is a text of that part *)
Theorem C99_path :
  forall jsmn to_int inner, (forall z, is_int z -> to_int z = z) ->
  forall data b e path b2 e2 root it,
    chain (c_run (json_op jsmn to_int inner)) data b e path b2 e2 -> document data b e root -> jsmn_knows jsmn data b e root ->
    part path root = Some it ->
    document data b2 e2 it /\ (path <> [] -> b2 = begin_of it /\ e2 = end_of it).
Proof. intros jsmn to_int inner H data b e path b2 e2 root it Hc Hd Hk Hp. destruct (chain_ok jsmn to_int inner H _ _ _ _ _ _ Hc _ _ Hd Hk Hp) as (H1 & _ & H2). auto. Qed.
Print Assumptions C99_path.

(** it gets there: after any number of steps, the request for the next is answered by a range *)
Theorem C99_next :
  forall jsmn to_int inner, (forall z, is_int z -> to_int z = z) ->
  forall data b e p1 q p2 b1 e1 root it lay buf,
    chain (c_run (json_op jsmn to_int inner)) data b e p1 b1 e1 -> document data b e root -> jsmn_knows jsmn data b e root ->
    part (p1 ++ q :: p2) root = Some it -> written lay buf (request data q b1 e1) ->
    exists out b2 e2, c_run (json_op jsmn to_int inner) lay buf = Ret (Some out) /\ answers_range out b2 e2.
Proof. exact chain_next. Qed.
Print Assumptions C99_next.

(** parseString with the range a path ended with gives the string there, if no NUL comes before its end *)
Theorem C99_string_partial :
  forall jsmn to_int inner, (forall z, is_int z -> to_int z = z) ->
  forall data b e path b2 e2 root cs sb se lay buf,
    chain (c_run (json_op jsmn to_int inner)) data b e path b2 e2 -> document data b e root -> jsmn_knows jsmn data b e root ->
    path <> [] -> part path root = Some (Str cs sb se) -> ~ In NUL (firstn (Z.to_nat e2) data) ->
    written lay buf [AStr n_parseString; AStr data; AInt b2; AInt e2] ->
    exists out, c_run (json_op jsmn to_int inner) lay buf = Ret (Some out) /\ one_string_text out cs.
Proof. intros jsmn to_int inner H data b e path b2 e2 root cs sb se lay buf Hc Hd Hk Hn Hp Hz (Hs & r & Hg). exact (chain_string jsmn to_int inner H _ _ _ _ _ _ _ _ _ _ _ _ _ Hc Hd Hk Hn Hp Hz Hs Hg). Qed.
Print Assumptions C99_string_partial.

(** a key that is not there is answered by the range 0, 0, which is the range of no part *)
Theorem C99_absent :
  forall jsmn to_int inner, (forall z, is_int z -> to_int z = z) ->
  forall data b e path b2 e2 root ms ob oe k lay buf,
    chain (c_run (json_op jsmn to_int inner)) data b e path b2 e2 -> document data b e root -> jsmn_knows jsmn data b e root ->
    part path root = Some (Obj ms ob oe) -> last_member k ms = None -> written lay buf (request data (Key k) b2 e2) ->
    (exists out, c_run (json_op jsmn to_int inner) lay buf = Ret (Some out) /\ answers_range out 0 0) /\
    (forall path' it, part path' root = Some it -> (0 <= begin_of it < end_of it)%Z).
Proof.
  intros jsmn to_int inner H data b e path b2 e2 root ms ob oe k lay buf Hc Hd Hk Hp Hl Hw. split; [exact (chain_absent jsmn to_int inner H _ _ _ _ _ _ _ _ _ _ _ _ _ Hc Hd Hk Hp Hl Hw)|].
  intros path' it Hp'. exact (part_range jsmn to_int inner H data b e path' root it Hd Hp').
Qed.
Print Assumptions C99_absent.

(** different paths end with different ranges: a longer path strictly inside, two that part without a common byte *)
Theorem C99_apart :
  forall jsmn to_int inner, (forall z, is_int z -> to_int z = z) ->
  forall data b e root p1 b1 e1 it1 p2 b2 e2 it2,
    document data b e root -> jsmn_knows jsmn data b e root ->
    chain (c_run (json_op jsmn to_int inner)) data b e p1 b1 e1 -> part p1 root = Some it1 -> p1 <> [] ->
    chain (c_run (json_op jsmn to_int inner)) data b e p2 b2 e2 -> part p2 root = Some it2 -> p2 <> [] ->
    (forall q p, p2 = p1 ++ q :: p -> (b1 < b2 /\ e2 < e1)%Z) /\
    ((forall p, p2 <> p1 ++ p) -> (forall p, p1 <> p2 ++ p) -> (e1 <= b2 \/ e2 <= b1)%Z) /\
    (b1 = b2 -> e1 = e2 -> p1 = p2).
Proof. exact chains_apart. Qed.
Print Assumptions C99_apart.

(** ** A concrete case *)

(** an object, in it an array, in it an object, in it a string *)
Definition deep : bytes := T "{" ++ q ++ T "a" ++ q ++ T ":[7,{" ++ q ++ T "b" ++ q ++ T ":" ++ q ++ T "xy" ++ q ++ T "}]}".
Definition deep_b : item := Str (T "xy") 13 17.
Definition deep_1 : item := Obj [(T "b", (9, 12)%Z, deep_b)] 8 18.
Definition deep_a : item := Arr [Prim 6 7; deep_1] 5 19.
Definition deep_item : item := Obj [(T "a", (1, 4)%Z, deep_a)] 0 20.

Lemma deep_document : document deep 0 20 deep_item.
Proof.
  exists [], deep, [], []. split; [reflexivity|]. split; [reflexivity|]. split; [reflexivity|]. split; [|constructor].
  refine (I_obj 0 [] (tl deep) _ [] _ _); [constructor|].
  refine (IM_last 1 [] (T "a" ++ q) (T "a") [] (T "[7,{" ++ q ++ T "b" ++ q ++ T ":" ++ q ++ T "xy" ++ q ++ T "}]}") _ [] [] _ _ _ _ _); [constructor|vm_compute; chars|constructor| |constructor].
  refine (I_arr 5 [] (T "7,{" ++ q ++ T "b" ++ q ++ T ":" ++ q ++ T "xy" ++ q ++ T "}]}") _ (T "}") _ _); [constructor|].
  refine (IE_cons 6 _ _ [] (T "{" ++ q ++ T "b" ++ q ++ T ":" ++ q ++ T "xy" ++ q ++ T "}]}") _ _ _ _ _); [|constructor|].
  - refine (I_prim 6 [] (T "7") (T ",{" ++ q ++ T "b" ++ q ++ T ":" ++ q ++ T "xy" ++ q ++ T "}]}") _ _); [constructor|]. vm_compute. apply Pr_number; [|constructor]. left. unfold digit. vm_compute. split; discriminate.
  - refine (IE_last 8 _ _ [] (T "}") _ _); [|constructor].
    refine (I_obj 8 [] (q ++ T "b" ++ q ++ T ":" ++ q ++ T "xy" ++ q ++ T "}]}") _ (T "]}") _ _); [constructor|].
    refine (IM_last 9 [] (T "b" ++ q) (T "b") [] (q ++ T "xy" ++ q ++ T "}]}") _ [] (T "]}") _ _ _ _ _); [constructor|vm_compute; chars|constructor| |constructor].
    refine (I_str 13 [] (T "xy" ++ q) (T "xy") (T "}]}") _ _); [constructor|]. vm_compute. chars.
Qed.

(** a tokenizer that knows the document and its parts *)
Definition deep_jsmn (data : bytes) (b e : Z) : outcome (Z * list token) :=
  let give it := Ret (Z.of_nat (length (tokens_of it)), tokens_of it) in
  if (b =? 0)%Z then give deep_item else if (b =? 5)%Z then give deep_a else if (b =? 6)%Z then give (Prim 6 7)
  else if (b =? 8)%Z then give deep_1 else give deep_b.
Lemma deep_knows : jsmn_knows deep_jsmn deep 0 20 deep_item.
Proof.
  split; [reflexivity|]. intros path it H.
  destruct path as [|[i|k] path]; [injection H as <-; reflexivity|discriminate|]. cbn [part deep_item last_member] in H. destruct (bytes_eqb (T "a") k); [|discriminate].
  destruct path as [|[i|k'] path]; [injection H as <-; reflexivity| |discriminate]. cbn [part deep_a] in H.
  destruct i as [|[|i]]; cbn [nth_error] in H; [| |destruct i; discriminate].
  - destruct path as [|[i|k'] path]; [injection H as <-; reflexivity|discriminate|discriminate].
  - destruct path as [|[i|k'] path]; [injection H as <-; reflexivity|discriminate|]. cbn [part deep_1 last_member] in H. destruct (bytes_eqb (T "b") k'); [|discriminate].
    destruct path as [|[i|k''] path]; [injection H as <-; reflexivity|discriminate|discriminate].
Qed.

Definition deep_op : opclass := json_op deep_jsmn (fun z => z) (fun _ => low).
Definition as_text (l : list jvalue) : bytes := match print (JArr l) with Ret t => t | _ => [] end.
Lemma as_text_written l : Forall simple l -> cstr (as_text l) = as_text l -> (N.of_nat (length (as_text l)) <? 2^28)%N = true -> written low (as_text l) (map ast_of l).
Proof.
  intros Hl Hc Hn. rewrite Forall_forall in Hl. destruct (print_simple_parse low (JArr l) ltac:(split; reflexivity) (S_arr l Hl)) as (t & Ht & Hg & _).
  unfold as_text in *. rewrite Ht in *. split; [rewrite Hc; now apply N.ltb_lt|]. exists []. rewrite Hc. eapply gval_lits; [|exact Hg]. intros []; reflexivity.
Qed.
Ltac is_simple := repeat (first [apply Forall_nil | apply Forall_cons; [first [apply S_str | apply S_int; vm_compute; reflexivity]|]]).
Ltac one_step l b e := eapply (C_ask _ _ _ _ _ _ low (as_text l) _ b e); [exact (as_text_written l ltac:(is_simple) eq_refl eq_refl)|vm_compute; reflexivity| |].
Lemma answer_text s b e : (0 <= b)%Z -> (0 <= e)%Z -> spells_range s b e -> answers_range (strings_text [s]) b e.
Proof. intros Hb He Hs. split; [exact Hb|]. split; [exact He|]. exists s. split; [apply one_string|exact Hs]. Qed.
Ltac at_range h := refine (answer_text (T h) _ _ _ _ _); [discriminate|discriminate|vm_compute; repeat split].

Example C99_example :
  document deep 0 20 deep_item /\ jsmn_knows deep_jsmn deep 0 20 deep_item /\
  part [Key (T "a"); Index 1; Key (T "b")] deep_item = Some (Str (T "xy") 13 17) /\
  chain (c_run deep_op) deep 0 20 [Key (T "a"); Index 1; Key (T "b")] 13 17 /\
  written low (as_text [JStr n_parseString; JStr deep; JInt 13; JInt 17]) [AStr n_parseString; AStr deep; AInt 13; AInt 17] /\
  c_run deep_op low (as_text [JStr n_parseString; JStr deep; JInt 13; JInt 17]) = answer (T "xy") /\
  chain (c_run deep_op) deep 0 20 [Key (T "a"); Index 0] 6 7 /\ part [Key (T "a"); Index 0] deep_item = Some (Prim 6 7) /\
  part [Key (T "a"); Index 1; Key (T "c")] deep_item = None /\
  c_run deep_op low (as_text [JStr op_objectGet; JStr deep; JInt 8; JInt 18; JStr (T "c")]) = answer (T "0000000000000000").
Proof.
  split; [exact deep_document|]. split; [exact deep_knows|]. split; [reflexivity|]. split; [|split; [|split; [vm_compute; reflexivity|split; [|split; [reflexivity|split; vm_compute; reflexivity]]]]].
  - one_step [JStr op_objectGet; JStr deep; JInt 0; JInt 20; JStr (T "a")] 5%Z 19%Z; [at_range "0000000500000013"%string|].
    one_step [JStr op_arrayGet; JStr deep; JInt 5; JInt 19; JInt 1] 8%Z 18%Z; [at_range "0000000800000012"%string|].
    one_step [JStr op_objectGet; JStr deep; JInt 8; JInt 18; JStr (T "b")] 13%Z 17%Z; [at_range "0000000d00000011"%string|].
    apply C_done.
  - exact (as_text_written [JStr n_parseString; JStr deep; JInt 13; JInt 17] ltac:(is_simple) eq_refl eq_refl).
  - one_step [JStr op_objectGet; JStr deep; JInt 0; JInt 20; JStr (T "a")] 5%Z 19%Z; [at_range "0000000500000013"%string|].
    one_step [JStr op_arrayGet; JStr deep; JInt 5; JInt 19; JInt 0] 6%Z 7%Z; [at_range "0000000600000007"%string|].
    apply C_done.
Qed.

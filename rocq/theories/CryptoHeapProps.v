(** Property C72: what the RSA operations do with the keys, BIOs and buffers they obtain. *)
From Coq Require Import String.
From Verif Require Import Base JsonSpec JsonModel JsonDenotes EniModel CryptoModel CryptoProps CryptoHeapModel CryptoHeapSpec CryptoHeapProof.
From Coq Require Import List NArith ZArith Bool Lia.
From Coq.Init Require Import Byte.
Import ListNotations.
Local Open Scope list_scope.

(** An object of either class, whatever calls are made on it before its destruction, uses no key after it was freed,
    frees none twice, answers as CryptoModel.v says, and leaves what [object_leaves] says. *)
Theorem C72_object_exact :
  forall (o : openssl) w lay text args r calls answers (L : ledger o),
    (N.of_nat (length text) < 2^28)%N -> gval (readable lay) text (AArr args) r -> Forall short_keys args ->
    v_object o w lay text calls = Ret answers ->
    exists L', h_object o w lay text calls L = Ret (L', answers) /\ more o L L' (object_leaves o w args calls).
Proof. exact object_exact. Qed.
Print Assumptions C72_object_exact.

(** Likewise any sequence of calls of the C functions. *)
Theorem C72_calls_exact :
  forall (o : openssl) l, Forall (proper o) l -> forall L : ledger o,
    exists L', h_calls o L (map (fun x => fst (fst x)) l) = Ret (L', map snd l) /\
      more o L L' (sum (map (fun x => call_leaves o (c_which (fst (fst x))) (c_fun (fst (fst x))) (snd (fst x))) l)).
Proof. exact calls_exact. Qed.
Print Assumptions C72_calls_exact.

(** Part of the claim that everything obtained is released: if no exception leaves a C function, as many keys exist
    afterwards as before.  Missing: BIOs, buffers, and calls without a message. *)
Theorem C72_released_partial :
  forall (o : openssl) l, Forall (proper o) l -> Forall (fun x => forall e, snd x <> Threw e) l -> forall L : ledger o,
    exists L', h_calls o L (map (fun x => fst (fst x)) l) = Ret (L', map snd l) /\ alive o L' = alive o L.
Proof. exact keys_kept. Qed.
Print Assumptions C72_released_partial.

(** Every call whose first argument is a string loses a BIO, every run on acceptable arguments a buffer, and every call
    given a key and no message the key. *)
Theorem C72_released_refuted :
  forall (o : openssl) c args a (L L' : ledger o),
    proper o (c, args, a) -> h_call o (c_which c) (c_fun c) (c_lay c) (c_buf c) L = Ret (L', a) ->
    (forall pem rest, args = AStr pem :: rest -> l_bios o L' = S (l_bios o L)) /\
    (forall pem m rest, args = AStr pem :: AStr m :: rest -> is_key o (c_which c) pem = true -> takes (c_which c) m = true -> c_fun c = Start ->
       l_bufs o L' = S (l_bufs o L)) /\
    (forall pem, args = [AStr pem] -> is_key o (c_which c) pem = true -> alive o L' = S (alive o L)).
Proof. exact never_released. Qed.
Print Assumptions C72_released_refuted.

(** Encrypting a line feed, decrypting the result, a text that is no key, and a missing message: four calls, four BIOs, two
    buffers, and one key that still exists.  An object asked three times without a message loses two keys. *)
Definition enc (m : bytes) : bytes := T "[" ++ q ++ T "PUB" ++ q ++ T "," ++ q ++ m ++ q ++ T "]".
(** which keys exist, the BIOs, the buffers, the answers *)
Definition state (r : outcome (ledger textbook * list eanswer)) : option (list bool * nat * nat * list eanswer) :=
  match r with
  | Ret (L, answers) => Some (map (fun k => match k with Some _ => true | None => false end) (l_keys textbook L), l_bios textbook L, l_bufs textbook L, answers)
  | _ => None
  end.
Example C72_example :
  state (h_calls textbook (ledger0 textbook)
    [mkRC Encrypt Start low (enc ([x5c] ++ T "n"));
     mkRC Decrypt Start low (T "[" ++ q ++ T "PRIV" ++ q ++ T "," ++ q ++ T "01f9" ++ q ++ T "]");
     mkRC Decrypt Start low (enc (T "01f9"));
     mkRC Encrypt GetGas low (T "[" ++ q ++ T "PUB" ++ q ++ T "]")])
  = Some ([false; false; true], 4, 2,
         [ResultIs (Some (T "[" ++ q ++ T "01f9" ++ q ++ T "]")); ResultIs (Some (T "[" ++ q ++ [x5c] ++ T "u000A" ++ q ++ T "]"));
          ResultIs None; Threw OutOfRangeVector]) /\
  state (h_object textbook Encrypt low (T "[" ++ q ++ T "PUB" ++ q ++ T "]") [GetGas; Start; GetGas] (ledger0 textbook))
  = Some ([true; true; false], 3, 0, [Threw OutOfRangeVector; Threw OutOfRangeVector; Threw OutOfRangeVector]).
Proof. vm_compute. split; reflexivity. Qed.

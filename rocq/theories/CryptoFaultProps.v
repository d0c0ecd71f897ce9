(** Property C101: the RSA operations when memory runs out. *)
From Coq Require Import String.
From Verif Require Import Base JsonSpec JsonModel JsonDenotes EniModel CryptoModel CryptoProps CryptoHeapModel CryptoHeapSpec CryptoFaultModel CryptoFaultSpec CryptoFaultProof3.
From Coq Require Import List NArith ZArith Bool Lia.
From Coq.Init Require Import Byte.
Import ListNotations.
Local Open Scope list_scope.

(** In all theorems [gets] says which requests get their memory, and [n] requests were made before.  A result [Ret] means
    that there is no undefined behaviour, and so no use of a key that was freed, and none freed twice. *)

(** An object whose key was read: calls that have all they need are answered as by an object on which only these calls are
    made; start() without memory for its buffer throws std::bad_alloc, without memory for OpenSSL it has no result.  No key
    is lost, and as many buffers as were obtained. *)
Theorem C101_served :
  forall (o : openssl) gets w lay text pem m rest r calls answers (L : ledger o) n,
    (N.of_nat (length text) < 2^28)%N -> gval (readable lay) text (AArr (AStr pem :: AStr m :: rest)) r -> Forall short_keys rest ->
    is_key o w pem = true -> takes w m = true -> gets n = true -> gets (S n) = true ->
    v_object o w lay text (fine (fates gets (S (S n)) calls)) = Ret answers ->
    exists L' n', f_object o gets w lay text calls L n = Ret (L', n', weave (fates gets (S (S n)) calls) answers) /\
      more o L L' (mkLeft (Nat.min (length calls) 1) (got (fates gets (S (S n)) calls)) 0).
Proof. intros o gets w lay text pem m rest r calls answers L n Hs. exact (object_served o gets w lay text Hs pem m rest r calls answers L n). Qed.
Print Assumptions C101_served.

(** An object whose key was not read when first asked, for lack of memory or because the arguments are no good, refuses
    every call, also when there is memory again. *)
Theorem C101_refused :
  forall (o : openssl) gets w lay text pem rest r calls (L : ledger o) n,
    (N.of_nat (length text) < 2^28)%N -> gval (readable lay) text (AArr (AStr pem :: rest)) r -> Forall short_keys rest ->
    gets n = false \/ gets (S n) = false \/ is_key o w pem = false \/ (exists m rest', rest = AStr m :: rest' /\ takes w m = false) ->
    exists L' n', f_object o gets w lay text calls L n = Ret (L', n', map refusal calls) /\
      more o L L' (mkLeft (if gets n then Nat.min (length calls) 1 else 0) 0 0).
Proof. intros o gets w lay text pem rest r calls L n Hs. exact (object_refused o gets w lay text Hs pem rest r calls L n). Qed.
Print Assumptions C101_refused.

(** Without a message every call throws and makes a key, up to the [t]-th call, whose request is refused; from then on
    every call is refused.  If there is such a call the last key is lost as well. *)
Theorem C101_lacking :
  forall (o : openssl) gets w lay text pem r calls (L : ledger o) n t,
    (N.of_nat (length text) < 2^28)%N -> gval (readable lay) text (AArr [AStr pem]) r -> is_key o w pem = true -> t <= length calls ->
    (forall i, i < t -> gets (n + 2 * i) = true /\ gets (S (n + 2 * i)) = true) ->
    (t < length calls -> gets (n + 2 * t) = false \/ gets (S (n + 2 * t)) = false) ->
    exists L' n', f_object o gets w lay text calls L n = Ret (L', n', repeat (Threw OutOfRangeVector) t ++ map refusal (skipn t calls)) /\
      more o L L' (mkLeft (t + if (t <? length calls) && gets (n + 2 * t) then 1 else 0) 0 (if t <? length calls then t else pred t)).
Proof. intros o gets w lay text pem r calls L n t Hs. exact (object_lacking o gets w lay text Hs pem r calls L n t). Qed.
Print Assumptions C101_lacking.

(** Calls of the C functions, whatever is refused: every answer is the one CryptoModel.v gives, or a refusal, or for a run
    std::bad_alloc.  One key is lost for each call that throws, unless it had no arguments; at most a BIO and a buffer
    for each call. *)
Theorem C101_calls :
  forall (o : openssl) gets l, Forall (proper o) l -> forall (L : ledger o) n,
    exists L' n' answers, f_calls o gets L n (map (fun x => fst (fst x)) l) = Ret (L', n', answers) /\
      Forall2 (fun x a' => a' = snd x \/ admits (c_fun (fst (fst x))) a') l answers /\
      alive o L' = alive o L + threw_with_arguments l answers /\
      l_bios o L' <= l_bios o L + length l /\ l_bufs o L' <= l_bufs o L + length l.
Proof. exact calls_ok. Qed.
Print Assumptions C101_calls.

(** Once nothing is refused any more the C functions answer as CryptoModel.v says, and leave what [call_leaves] says,
    whatever was refused before. *)
Theorem C101_recovered :
  forall (o : openssl) gets l, Forall (proper o) l -> forall (L : ledger o) n, (forall m, n <= m -> gets m = true) ->
    exists L' n', f_calls o gets L n (map (fun x => fst (fst x)) l) = Ret (L', n', map snd l) /\
      more o L L' (sum (map (fun x => call_leaves o (c_which (fst (fst x))) (c_fun (fst (fst x))) (snd (fst x))) l)).
Proof. exact calls_recover. Qed.
Print Assumptions C101_recovered.

(** ** Cases *)
Definition args (a b : bytes) : bytes := T "[" ++ q ++ a ++ q ++ T "," ++ q ++ b ++ q ++ T "]".
Definition lone (a : bytes) : bytes := T "[" ++ q ++ a ++ q ++ T "]".
(** the requests with these numbers are refused *)
Definition but (l : list nat) (n : nat) : bool := negb (existsb (Nat.eqb n) l).
(** which keys exist, the BIOs, the buffers, the requests made, the answers *)
Definition seen (r : outcome (ledger textbook * nat * list eanswer)) : option (list bool * nat * nat * nat * list eanswer) :=
  match r with
  | Ret (L, n, answers) => Some (map (fun k => match k with Some _ => true | None => false end) (l_keys textbook L), l_bios textbook L, l_bufs textbook L, n, answers)
  | _ => None
  end.
Definition feed : bytes := [x5c] ++ T "n".
(** Three runs on one object, the first without a buffer, the second without memory in OpenSSL: the third answers as a
    first one.  The same object with no memory for its key: all is refused.  No message, no BIO at the second call: the key
    made by the first call is lost.  Four calls of a C function: the first gets no BIO, the second no key, the third no
    buffer. *)
Example C101_objects :
  seen (f_object textbook (but [2; 4]) Encrypt low (args (T "PUB") feed) [GetGas; Start; Start; Start] (ledger0 textbook) 0)
  = Some ([false], 1, 2, 7, [GasIs 20; Threw StdBadAlloc; ResultIs None; ResultIs (Some (lone (T "01f9")))]) /\
  seen (f_object textbook (but [1]) Encrypt low (args (T "PUB") feed) [GetGas; Start; Start] (ledger0 textbook) 0)
  = Some ([], 1, 0, 2, [GasIs 1500; ResultIs None; ResultIs None]) /\
  seen (f_object textbook (but [2]) Encrypt low (lone (T "PUB")) [GetGas; Start; GetGas] (ledger0 textbook) 0)
  = Some ([true], 1, 0, 3, [Threw OutOfRangeVector; ResultIs None; GasIs 1500]) /\
  seen (f_calls textbook (but [0; 2; 5]) (ledger0 textbook) 0
    [mkRC Encrypt Start low (args (T "PUB") feed); mkRC Encrypt GetGas low (args (T "PUB") feed);
     mkRC Encrypt Start low (args (T "PUB") feed); mkRC Encrypt Start low (args (T "PUB") feed)])
  = Some ([true; false], 3, 1, 10, [ResultIs None; GasIs 1500; Threw StdBadAlloc; ResultIs (Some (lone (T "01f9")))]).
Proof. vm_compute. repeat split; reflexivity. Qed.

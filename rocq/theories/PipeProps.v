(** Property C107: what one eni_run prints is what the next one takes.

    [script] runs eni_run once for each stage, each time with what the time before printed as arguments, and stops at the
    first that fails; it answers the exit code and what is printed in the end. *)
From Coq Require Import String.
From Verif Require Import Base JsonSpec JsonModel JsonDenotes EniModel ScryptModel ScryptSpec Sha256 CliSpec CliModel ConsensusModel CryptoProof ScryptProof3 PipeSpec PipeProof.
From Coq Require Import List NArith ZArith Bool Lia.
From Coq.Init Require Import Byte.
From Coq.Strings Require Import Byte.
Import ListNotations.
Import ScryptSpec.
Local Open Scope list_scope.

Definition T (s : string) : bytes := list_byte_of_string s.
Definition q : bytes := [x22].

(** However many stages, in whatever layouts and from whatever libraries: a script of reverse and scrypt prints the string that
    the operations make of the first argument, or exits with 5 where scrypt is handed no header. *)
Theorem C107_pipeline :
  forall sha, (forall m, length (sha m) = 32%nat) ->
  forall a, (a + 63 < 2^64)%N ->
  forall strict tool st l params s k r,
    (N.of_nat (length params) < 2^31)%N -> (N.of_nat (length (cstr params)) < 2^28)%N -> (N.of_nat (length s) < 2^25)%N ->
    gval (readable (st_lay st)) (cstr params) (AArr (AStr s :: k)) r ->
    (forall s', chain sha a (st :: l) s s' ->
       exists t, script strict tool (st :: l) params = Ret (0%Z, t) /\ gval documented t (AArr [AStr s']) []) /\
    (blocked sha a (st :: l) s -> script strict tool (st :: l) params = Ret (5%Z, [])).
Proof. exact pipeline. Qed.
Print Assumptions C107_pipeline.

(** One of the two is the case. *)
Theorem C107_total :
  forall sha a l, served sha a l -> forall s, (exists s', chain sha a l s s') \/ blocked sha a l s.
Proof. exact chain_total. Qed.
Print Assumptions C107_total.

(** So reversing any even number of times prints the string again, and any odd number of times its reverse. *)
Theorem C107_reverse :
  forall strict tool st l params s k r, Forall (fun x => serves x reverse_op) (st :: l) ->
    (N.of_nat (length params) < 2^31)%N -> (N.of_nat (length (cstr params)) < 2^28)%N -> (N.of_nat (length s) < 2^25)%N ->
    gval (readable (st_lay st)) (cstr params) (AArr (AStr s :: k)) r ->
    exists t, script strict tool (st :: l) params = Ret (0%Z, t) /\
      gval documented t (AArr [AStr (if Nat.even (length (st :: l)) then s else rev s)]) [].
Proof.
  intros strict tool st l params s k r Hf L1 L2 L3 G.
  apply (proj1 (pipeline (fun _ => repeat x00 32) (fun _ => eq_refl) 0%N eq_refl strict tool st l params s k r L1 L2 L3 G)). now apply chain_reverse.
Qed.
Print Assumptions C107_reverse.

(** Two libraries, and processes of different layouts.  The reverse of 0x is handed to scrypt, which refuses it. *)
Definition low : layout := mkL 1000 10 20.
Definition high : layout := mkL 1000 2000 2010.
Definition rev_stage (lay : layout) : stage := mkS lay (T "eni_reverse.so") [(T "reverse", reverse_op)] (T "reverse").
Definition scrypt_stage (lay : layout) : stage := mkS lay (T "eni_scrypt.so") [(T "scrypt", scrypt_op sha256 1000)] (T "scrypt").
Example C107_example :
  served sha256 1000 [rev_stage low; scrypt_stage high; rev_stage high] /\
  script true (T "eni_run") [rev_stage low; rev_stage high; rev_stage low] (T "[" ++ q ++ T "abc" ++ q ++ T ",true] tail") = Ret (0%Z, T "[" ++ q ++ T "cba" ++ q ++ T "]") /\
  script true (T "eni_run") [rev_stage low; scrypt_stage high; rev_stage high] (T "[" ++ q ++ T "0x" ++ q ++ T "]") = Ret (5%Z, []) /\
  blocked sha256 1000 [rev_stage low; scrypt_stage high; rev_stage high] (T "0x") /\
  exists s', chain sha256 1000 [rev_stage low; scrypt_stage high; rev_stage high] (T "00") s'.
Proof.
  assert (N1 : forall x : bytes, NoDup [x]) by (intros x; constructor; [intros []|constructor]).
  assert (R : forall lay, serves (rev_stage lay) reverse_op) by (intros lay; split; [apply N1|]; split; [now left|]; repeat split; reflexivity).
  assert (S : forall lay, serves (scrypt_stage lay) (scrypt_op sha256 1000)) by (intros lay; split; [apply N1|]; split; [now left|]; repeat split; reflexivity).
  assert (V : served sha256 1000 [rev_stage low; scrypt_stage high; rev_stage high]).
  { apply Forall_cons; [left; apply R|]. apply Forall_cons; [right; apply S|]. apply Forall_cons; [left; apply R|apply Forall_nil]. }
  split; [exact V|]. split; [vm_compute; reflexivity|]. split; [vm_compute; reflexivity|]. split.
  - apply B_reverse; [apply R|]. apply B_here; [apply S|]. intros [_ H]. inversion H as [|c l Hc _]; subst. apply Hc. reflexivity.
  - destruct (header_bytes_exists (rev (T "00"))) as (hd & Hh & _); [split; [cbn; lia|repeat (apply Forall_cons; [discriminate|]); apply Forall_nil]|].
    eexists. eapply C_reverse; [apply R|]. eapply C_scrypt; [apply S| |eapply C_reverse; [apply R|apply C_end]].
    split; [split; [cbn; lia|repeat (apply Forall_cons; [discriminate|]); apply Forall_nil]|]. exists hd. split; [exact Hh|]. apply CryptoProof.str2hex_text.
Qed.

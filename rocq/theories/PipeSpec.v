(** Shell scripts that hand what one eni_run prints to the next, and what they should compute. *)
From Coq Require Import String.
From Verif Require Import Base CryptoSpec ScryptSpec CliSpec EniModel ScryptModel JsonModel CliModel ConsensusModel.
From Coq Require Import List NArith ZArith Bool.
From Coq.Init Require Import Byte.
From Coq.Strings Require Import Byte.
Import ListNotations.
Import ScryptSpec.

(** One call of eni_run: the memory of its process, the library file with its operations, and the name of the operation. *)
Record stage : Type := mkS { st_lay : layout; st_path : bytes; st_ops : list (bytes * opclass); st_name : bytes }.

(** The name stands for the operation [c], and neither the file nor the name looks like an option. *)
Definition serves (st : stage) (c : opclass) : Prop :=
  NoDup (map fst (st_ops st)) /\ In (st_name st, c) (st_ops st) /\ is_option (st_path st) = false /\ is_option (st_name st) = false /\
  (N.of_nat (length (st_path st)) < 2^31)%N /\ (N.of_nat (length (st_name st)) < 2^31)%N.

(** POSIX, command substitution: newlines at the end are removed. *)
Fixpoint substituted (out : bytes) : bytes :=
  match out with
  | [] => []
  | c :: out' => match substituted out' with
                 | [] => if beqb c x0a then [] else [c]
                 | r => c :: r
                 end
  end.

(** not code of the repository: p=$(eni_run PATH NAME "$p") || exit, once for each stage; what is left is printed.
    The calls are those of tools/eni_cli/eni_run.cpp:18-40. *)
Fixpoint script (strict : bool) (tool : bytes) (l : list stage) (params : bytes) : outcome (Z * bytes) :=
  match l with
  | [] => Ret (0%Z, params)
  | st :: l' =>
      r <- main_run strict (one_library (st_lay st) (st_path st) (st_ops st)) [tool; st_path st; st_name st; params] ;;
      let '(code, out) := r in
      if (code =? 0)%Z then script strict tool l' (substituted out) else Ret (code, [])
  end.

Section Chain.
  (** SHA-256, and where the scratch memory of scrypt lies *)
  Variables (sha : bytes -> bytes) (a : N).

  (** Each stage is the reverse operation or scrypt. *)
  Definition served (l : list stage) : Prop := Forall (fun st => serves st reverse_op \/ serves st (scrypt_op sha a)) l.

  (** The digits of the hash of a header. *)
  Definition hashed (h d : bytes) : Prop :=
    accepted h /\ exists hd, header_bytes h hd /\ hex_text d (scrypt sha hd hd 1024 1 1 32) /\ Forall lower_hex d.

  (** [chain l s s']: the stages take the string [s] to [s'];  [blocked l s]: one of them is scrypt and gets no header. *)
  Inductive chain : list stage -> bytes -> bytes -> Prop :=
  | C_end s : chain [] s s
  | C_reverse st l s s' : serves st reverse_op -> chain l (rev s) s' -> chain (st :: l) s s'
  | C_scrypt st l h d s' : serves st (scrypt_op sha a) -> hashed h d -> chain l d s' -> chain (st :: l) h s'.
  Inductive blocked : list stage -> bytes -> Prop :=
  | B_here st l h : serves st (scrypt_op sha a) -> ~ accepted h -> blocked (st :: l) h
  | B_reverse st l s : serves st reverse_op -> blocked l (rev s) -> blocked (st :: l) s
  | B_scrypt st l h d : serves st (scrypt_op sha a) -> hashed h d -> blocked l d -> blocked (st :: l) h.
End Chain.

(** Properties C81 and C82: the tools and the operations together.

    [one_library lay path ops] is a system on which the file [path] offers the operations [ops], in a process whose memory
    is laid out as [lay]. *)
From Coq Require Import String.
From Verif Require Import Base JsonSpec JsonModel JsonDenotes EniModel EniProps CryptoSpec CryptoModel CryptoProps ScryptModel ScryptSpec Sha256
  CliSpec CliModel ConsensusModel ToolsProof.
From Coq Require Import List NArith ZArith Bool Lia.
From Coq.Init Require Import Byte.
From Coq.Strings Require Import Byte.
Import ListNotations.
Import ScryptSpec.
Local Open Scope list_scope.

Definition T (s : string) : bytes := list_byte_of_string s.

(** ** C81: a command line gives what the operation promises *)

(** eni_run prints a JSON array with the reversed string. *)
Theorem C81_reverse :
  forall strict lay path ops argv params s l r, (forall a, In a (tl argv) -> (N.of_nat (length a) < 2^31)%N) ->
    NoDup (map fst ops) -> In (T "reverse", reverse_op) ops -> positionals (tl argv) [path; T "reverse"; params] ->
    (N.of_nat (length (cstr params)) < 2^28)%N -> gval (readable lay) (cstr params) (AArr (AStr s :: l)) r ->
    exists t, main_run strict (one_library lay path ops) argv = Ret (0%Z, t ++ [x0a]) /\ gval documented t (AArr [AStr (rev s)]) [].
Proof. intros strict lay path ops argv params s l r Ha Hd Hi Hp Hs Hg. exact (proj1 (tool_reverse strict lay path ops argv params s l r Ha Hd Hi Hp Hs Hg)). Qed.
Print Assumptions C81_reverse.

(** eni_run prints a JSON array with the scrypt hash of the 80 bytes that the header stands for, or ends with status 5. *)
Theorem C81_scrypt :
  forall strict sha, (forall m, length (sha m) = 32%nat) ->
  forall a, (a + 63 < 2^64)%N ->
  forall lay path ops argv name params h l r hd, (forall a, In a (tl argv) -> (N.of_nat (length a) < 2^31)%N) ->
    NoDup (map fst ops) -> In (name, scrypt_op sha a) ops -> positionals (tl argv) [path; name; params] ->
    (N.of_nat (length (cstr params)) < 2^28)%N -> gval (readable lay) (cstr params) (AArr (AStr h :: l)) r ->
    (accepted h -> header_bytes h hd ->
      exists t d, main_run strict (one_library lay path ops) argv = Ret (0%Z, t ++ [x0a]) /\ gval documented t (AArr [AStr d]) [] /\
                  hex_text d (scrypt sha hd hd 1024 1 1 32) /\ Forall lower_hex d) /\
    (~ accepted h -> main_run strict (one_library lay path ops) argv = Ret (5%Z, [])).
Proof. intros strict sha Hsha a Ha. exact (tool_scrypt strict sha Hsha a Ha). Qed.
Print Assumptions C81_scrypt.

(** What one eni_run prints for an encryption, another eni_run, in a process of any layout, decrypts. *)
Theorem C81_rsa :
  forall strict (o : openssl) lay lay' path ops argv enc dec params pem m l r pub c,
    (forall a, In a (tl argv) -> (N.of_nat (length a) < 2^31)%N) ->
    NoDup (map fst ops) -> In (enc, encrypt_op o) ops -> In (dec, decrypt_op o) ops -> positionals (tl argv) [path; enc; params] ->
    (N.of_nat (length (cstr params)) < 2^28)%N -> gval (readable lay) (cstr params) (AArr (AStr pem :: AStr m :: l)) r -> Forall short_keys l ->
    read_pub o (cstr pem) = Some pub -> pub_encrypt o pub m = Ret (Some c) ->
    exists t h, main_run strict (one_library lay path ops) argv = Ret (0%Z, t ++ [x0a]) /\ gval documented t (AArr [AStr h]) [] /\ hex_text h c /\
      forall argv' params' pem' l' r' priv, (forall a, In a (tl argv') -> (N.of_nat (length a) < 2^31)%N) ->
        positionals (tl argv') [path; dec; params'] ->
        (N.of_nat (length (cstr params')) < 2^28)%N -> gval (readable lay') (cstr params') (AArr (AStr pem' :: AStr h :: l')) r' -> Forall short_keys l' ->
        read_priv o (cstr pem') = Some priv -> rsa_size o priv = rsa_size o pub ->
        inverse_blocks (rsa_size o pub) (raw_pub_encrypt o pub) (raw_priv_decrypt o priv) ->
        ~ In NUL m -> (length m < rsa_size o pub)%nat ->
        exists t', main_run strict (one_library lay' path ops) argv' = Ret (0%Z, t' ++ [x0a]) /\ gval documented t' (AArr [AStr m]) [].
Proof. exact tool_rsa. Qed.
Print Assumptions C81_rsa.

Definition q : bytes := [x22].
Definition high : layout := mkL 1000 5000 6000.
Definition library (lay : layout) := one_library lay (T "lib.so") [(T "eni_scrypt", scrypt_op sha256 1000); (T "reverse", reverse_op)].
Example C81_example :
  main_run true (library high) [T "eni_run"; T "lib.so"; T "reverse"; T "[" ++ q ++ T "abc" ++ q ++ T "]"] = Ret (0%Z, T "[" ++ q ++ T "cba" ++ q ++ T "]" ++ [x0a]) /\
  main_gas false (library high) [T "eni_gas"; T "lib.so"; T "reverse"; T "[" ++ q ++ T "abc" ++ q ++ T "]"] = Ret (0%Z, T "30" ++ [x0a]) /\
  main_run true (library high) [T "eni_run"; T "lib.so"; T "eni_scrypt"; T "[" ++ q ++ T "0x" ++ q ++ T "]"] = Ret (5%Z, []) /\
  main_run true (one_library low (T "rsa.so") [(T "enc", encrypt_op textbook); (T "dec", decrypt_op textbook)])
    [T "eni_run"; T "rsa.so"; T "enc"; T "[" ++ q ++ T "PUB" ++ q ++ T "," ++ q ++ [x5c] ++ T "n" ++ q ++ T "]"] = Ret (0%Z, T "[" ++ q ++ T "01f9" ++ q ++ T "]" ++ [x0a]).
Proof. split; [vm_compute; reflexivity|]. split; [vm_compute; reflexivity|]. split; [vm_compute; reflexivity|]. vm_compute. reflexivity. Qed.

(** ** C82: the consensus test passes on random strings *)

(** For every library, whatever its operations compute from their arguments: the runs of a test with random parameters
    agree although each process [k] has its own layout [lays k].  [finish] is what a run's outcome looks like from
    outside; its output is UTF-8. *)
Theorem C82_consensus :
  forall utf8 finish strict lays path ops rands randh file n (tests : list (list bytes)),
    (1 < n)%Z -> (forall o, utf8 (stdout (finish o)) = true /\ utf8 (stderr (finish o)) = true) ->
    (forall i j k s, rands i j k = Some s \/ randh i j k = Some s -> (~ In x22 s /\ ~ In x5c s) /\ ~ In NUL s) ->
    is_option path = false -> (N.of_nat (length path) < 2^31)%N ->
    (forall m test, nth_error tests m = Some test ->
       exists op args params, test = op :: args /\ op <> [] /\ is_option op = false /\ (N.of_nat (length op) < 2^31)%N /\
         (forall a, In a args -> exists r, a = T "s" ++ r \/ a = T "h" ++ r) /\
         start_test rands randh file m test = Some (op, params) /\ (N.of_nat (length params) < 2^28)%N) ->
    exit_status utf8 (fun k argv => Some (finish (main_run strict (one_library (lays k) path ops) argv))) rands randh file n [(path, tests)] = 0%Z.
Proof. exact consensus_passes. Qed.
Print Assumptions C82_consensus.

(** three runs of two tests in processes of two layouts; with a file that holds the text of a boolean between quotes
    and commas the runs need not agree *)
Definition finish (o : outcome (Z * bytes)) : proc := match o with Ret (n, out) => mkP n out [] | _ => mkP 134 [] [] end.
Definition lays (k : nat) : layout := if Nat.even k then low else high.
Definition first_type : opclass :=
  mkOp (list jvalue) [] (fun _ args => (args, Ret true)) (fun _ => Ret 0%N) (fun args l => (args, l ++ args, Ret true)).
Example C82_example :
  let status contents tests := exit_status (fun _ => true) (fun k argv => Some (finish (main_run true (one_library (lays k) (T "lib.so") [(T "reverse", reverse_op); (T "same", first_type)]) argv)))
    (fun _ _ _ => Some (T "xyz")) (fun _ _ _ => Some (T "0a")) (fun _ => Some contents) 3 [(T "lib.so", tests)] in
  status [] [[T "reverse"; T "s:3"]; [T "same"; T "h:2"; T "s:3"]] = 0%Z /\
  status (T "a" ++ q ++ T ",true," ++ q ++ T "b") [[T "same"; T "f:x"]] = 1%Z.
Proof. vm_compute. auto. Qed.

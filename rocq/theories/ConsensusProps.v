(** Properties C79 and C80: the consensus test tool. *)
From Coq Require Import String.
From Verif Require Import Base JsonModel ConsensusModel ConsensusProof ConsensusSpec ConsensusProof2.
From Coq Require Import List NArith ZArith Bool Lia.
From Coq.Init Require Import Byte.
From Coq.Strings Require Import Byte.
Import ListNotations.
Local Open Scope list_scope.

Definition T (s : string) : bytes := list_byte_of_string s.

(** ** C79: the tool passes exactly when every test gives the same result each time *)

(** [members] are the members of the description file.  The exit status is 0 if and only if at least two runs are asked
    for, every test of the loaded description names an operation and has parameters that can be made, and all its runs (the
    [n] processes from number [m * n] on) end with one status and one output, which is UTF-8. *)
Theorem C79_verdict :
  forall utf8 launch rands randh file n members,
    exit_status utf8 launch rands randh file n members = 0%Z <->
    (1 < n)%Z /\
    forall m so args, nth_error (tests_of (loads members)) m = Some (so, args) ->
      exists op params p,
        start_test rands randh file m args = Some (op, params) /\ op <> [] /\
        (utf8 (stdout p) = true /\ utf8 (stderr p) = true) /\
        forall j, (j < Z.to_nat n)%nat -> launch (m * Z.to_nat n + j)%nat [T "eni_run"; so; op; params] = Some p.
Proof. exact status_ok. Qed.
Print Assumptions C79_verdict.

(** Else it is 1. *)
Theorem C79_statuses :
  forall utf8 launch rands randh file n members,
    exit_status utf8 launch rands randh file n members = 0%Z \/ exit_status utf8 launch rands randh file n members = 1%Z.
Proof. intros. unfold exit_status. destruct (run_tests _ _ _ _ _ _ _) as [[|]|]; auto. Qed.
Print Assumptions C79_statuses.

(** The tests of a description that names no path twice are those listed.  Missing: descriptions that do. *)
Theorem C79_listed_partial :
  forall members, NoDup (map fst members) ->
    tests_of (loads members) = flat_map (fun m => map (fun args => (fst m, args)) (snd m)) members.
Proof. intros members H. now rewrite loads_nodup. Qed.
Print Assumptions C79_listed_partial.

(** A test listed under a path that is named again is not run: whatever its runs would give, the tool passes. *)
Theorem C79_listed_refuted :
  exists members so args,
    In (so, args) (flat_map (fun m => map (fun args => (fst m, args)) (snd m)) members) /\
    forall utf8 launch rands randh file n, (1 < n)%Z -> exit_status utf8 launch rands randh file n members = 0%Z.
Proof.
  exists [(T "a.so", [[T "op"; T "h:160"]]); (T "a.so", [])], (T "a.so"), [T "op"; T "h:160"].
  split; [cbn; auto|]. intros utf8 launch rands randh file n Hn. apply status_ok. split; [exact Hn|]. intros [|m] so args H; discriminate.
Qed.
Print Assumptions C79_listed_refuted.

(** a test whose third run differs *)
Example C79_example :
  let p := mkP 0 (T "[1]") [] in
  let launch bad k (_ : list bytes) := Some (if Nat.eqb k bad then mkP 0 (T "[2]") [] else p) in
  let gen (_ _ : nat) (_ : bytes) := Some (T "AB") in
  let status bad := exit_status (fun _ => true) (launch bad) gen gen (fun _ => None) 3 [(T "a.so", [[T "f"; T "s:2"]])] in
  status 2%nat = 1%Z /\ status 3%nat = 0%Z.
Proof. vm_compute. auto. Qed.

(** ** C80: the parameters are the strings described *)

(** The operation receives exactly the strings [ss] if and only if none of them contains a quotation mark or a backslash. *)
Theorem C80_parameters_exact :
  forall lay ss, (N.of_nat (length (params_text ss)) < 2^28)%N ->
    (parse lay (params_text ss) = Ret (true, JArr (map JStr ss)) <-> Forall (fun s => ~ In x22 s /\ ~ In x5c s) ss).
Proof. exact params_ok. Qed.
Print Assumptions C80_parameters_exact.

(** The string made for a file is its text without the newlines at its end. *)
Theorem C80_file :
  forall rands randh file i op name params,
    start_test rands randh file i [op; T "f:" ++ name] = Some (op, params) <->
    exists text n s, file name = Some text /\ text = s ++ repeat x0a n /\ (forall s', s <> s' ++ [x0a]) /\ params = params_text [s].
Proof.
  intros rands randh file i op name params. cbn. destruct (file name) as [t|]; cbn.
  - split.
    + intros [= <-]. destruct (proj1 (rstrip_iff t (rstrip_lf t)) eq_refl) as [(n & H1) H2]. exists t, n, (rstrip_lf t). auto.
    + intros (t' & n & s & [= <-] & H1 & H2 & ->). repeat f_equal. apply rstrip_iff. eauto.
  - split; [discriminate|]. intros (? & ? & ? & H & _). discriminate H.
Qed.
Print Assumptions C80_file.

(** So there are files whose contents never arrive, wherever the text lies. *)
Theorem C80_parameters_refuted :
  exists file args params s,
    file (T "x") = Some s /\ start_test (fun _ _ _ => None) (fun _ _ _ => None) file 0 (T "op" :: args) = Some (T "op", params) /\
    args = [T "f:x"] /\ forall lay, parse lay params <> Ret (true, JArr [JStr s]).
Proof.
  exists (fun _ => Some [x5c; x6e]), [T "f:x"], (params_text [[x5c; x6e]]), [x5c; x6e].
  split; [reflexivity|]. split; [reflexivity|]. split; [reflexivity|]. intros lay H.
  apply (C80_parameters_exact lay [[x5c; x6e]]) in H; [|reflexivity]. inversion H as [|? ? [_ H2] _]; subst. apply H2. now left.
Qed.
Print Assumptions C80_parameters_refuted.

(** The test of an operation can be started if and only if there are strings for all its arguments; the operation receives
    these strings, in order, if and only if none of them contains a quotation mark or a backslash. *)
Theorem C80_asked_exact :
  forall rands randh file i op args params,
    start_test rands randh file i (op :: args) = Some (op, params) <->
    exists ss, length ss = length args /\
      (forall j a s, nth_error args j = Some a -> nth_error ss j = Some s -> asked rands randh file i j a s) /\
      params = params_text ss /\
      ((N.of_nat (length params) < 2^28)%N ->
       forall lay, parse lay params = Ret (true, JArr (map JStr ss)) <-> Forall (fun s => ~ In x22 s /\ ~ In x5c s) ss).
Proof.
  intros rands randh file i op args params. rewrite start_test_iff. split.
  - intros (ss & H1 & H2 & ->). exists ss. repeat split; auto; now apply params_ok.
  - intros (ss & H1 & H2 & H3 & _). now exists ss.
Qed.
Print Assumptions C80_asked_exact.

(** In particular random strings and random hexadecimal strings arrive.  Missing: files with quotation marks or backslashes. *)
Theorem C80_random_partial :
  forall rands randh file lay i op args params,
    (forall i j n s, rands i j n = Some s -> ~ In x22 s /\ ~ In x5c s) ->
    (forall i j n s, randh i j n = Some s -> ~ In x22 s /\ ~ In x5c s) ->
    (forall a, In a args -> exists r, a = T "s" ++ r \/ a = T "h" ++ r) ->
    start_test rands randh file i (op :: args) = Some (op, params) -> (N.of_nat (length params) < 2^28)%N ->
    exists ss, length ss = length args /\
      (forall j a s, nth_error args j = Some a -> nth_error ss j = Some s -> asked rands randh file i j a s) /\
      parse lay params = Ret (true, JArr (map JStr ss)).
Proof.
  intros rands randh file lay i op args params Hs Hh Ha H Hl. pose proof H as H0. cbn [start_test] in H.
  destruct (expand_args rands randh file i 0 args) as [ss|] eqn:E; [|discriminate]. injection H as <-.
  destruct (random_plain rands randh file Hs Hh i args Ha 0 ss E) as [H1 H2]. exists ss. split; [exact H2|].
  split; [|now apply params_ok]. apply expand_all in E as [_ E]. exact E.
Qed.
Print Assumptions C80_random_partial.

(** a random string, a file and a random hexadecimal string *)
Example C80_asked_example :
  let rands := fun i j n => if Nat.eqb (length n) 1 then Some (repeat x41 (i + j + 2)) else None in
  let randh := fun i j n => if Nat.eqb (length n) 1 then Some (repeat x30 (i + j + 2)) else None in
  let file := fun name => Some (T "C" ++ [x0a]) in
  start_test rands randh file 1 [T "op"; T "s:3"; T "f:x"; T "h:5"] = Some (T "op", params_text [T "AAA"; T "C"; T "00000"]) /\
  asked rands randh file 1 1 (T "f:x") (T "C").
Proof. split; [vm_compute; reflexivity|]. apply (asked_file _ _ _ _ _ _ _ (T "C" ++ [x0a]) 1); try reflexivity. intros [|c [|d s]]; discriminate. Qed.

Example C80_file_example :
  start_test (fun _ _ _ => None) (fun _ _ _ => None) (fun _ => Some [x41; x0a; x42; x0a; x0a]) 0 [T "op"; T "f:x"] =
  Some (T "op", params_text [[x41; x0a; x42]]).
Proof. vm_compute. reflexivity. Qed.

(** a file with a backslash and an n *)
Example C80_example :
  let lay := mkL 1000 0 0 in
  parse lay (params_text [T "AB"; T "C"]) = Ret (true, JArr [JStr (T "AB"); JStr (T "C")]) /\
  parse lay (params_text [[x5c; x6e]]) = Ret (true, JArr [JStr [x0a]]).
Proof. vm_compute. auto. Qed.

(** Properties C62, C63 and C64: json::Parser and EniBase on the memory. *)
From Coq Require Import String.
From Verif Require Import Base JsonModel JsonSpec JsonDenotes ValueSpec ValueModel JsonHeapSpec JsonHeapModel JsonLossSpec JsonHeapProof5 EniProps.
From Coq Require Import List NArith ZArith Bool Lia.
From Coq.Init Require Import Byte.
Import ListNotations.
Local Open Scope list_scope.

(** In all theorems: [grows] says at which push_back std::vector moves its elements, [lay] where the literals lie in
    memory, [prog] is any program over values run before, [n] the number of variables, enough for the parser's own, and
    no variable but m_Args and m_ReturnValues of an EniBase is alive.  [short_text]: the model of objects is that of keys
    shorter than 65536 bytes. *)

(** ** C62: parsing on the memory *)

(** Constructing a json::Parser, reading its value and destroying it: no undefined behaviour, no exception but the one
    caught by parse(); success exactly for the texts of the grammar; then the root holds what the text denotes, else it is
    undefined; every value of the program keeps its content; in the end every value the parser made is destroyed. *)
Theorem C62_parse_memory :
  forall grows lay text n objs prog e log, short_text text -> 7 + 2 * length text <= n -> arun (env0 n) prog = Some (e, log) ->
    (forall x, x <> v_args -> x <> v_rets -> is_alive (e_alive e) x = false) ->
    exists st c ok st2, run (state0 n objs) prog = Ret (st, log) /\ parser_make grows lay text st = (c, Ret ok) /\ parser_drop c = Ret st2 /\
      (ok = true <-> exists a r, gval (readable lay) text a r) /\
      (forall a r, gval (readable lay) text a r -> content (h_mem c) v_root = Ret (denote a)) /\
      (ok = false -> content (h_mem c) v_root = Ret TUndef) /\
      (forall x t, content st x = Ret t -> content (h_mem c) x = Ret t /\ content st2 x = Ret t) /\
      (forall x, x <> v_args -> x <> v_rets -> is_alive (s_alive st2) x = false).
Proof.
  intros grows lay text n objs prog e log _ Hn Hr Hf. destruct (parse_ok grows lay text n objs prog e log Hn Hr Hf) as (st & c & ok & st2 & H1 & H2 & H3 & H4 & H5 & H6 & H7 & H8 & _).
  exists st, c, ok, st2. repeat (split; [assumption|]). assumption.
Qed.
Print Assumptions C62_parse_memory.

(** ** C63: storage of the parser *)

(** A Parser made for a text of the grammar and destroyed leaves the storage in use as it was if no integer occurs in the
    text, arrays hold nothing but booleans and members that are replaced are booleans.

    Missing: every other text, see [C63_storage_refuted]; and texts that are not of the grammar. *)
Theorem C63_storage_partial :
  forall grows lay text n objs prog e log a r, short_text text -> 7 + 2 * length text <= n -> arun (env0 n) prog = Some (e, log) ->
    (forall x, x <> v_args -> x <> v_rets -> is_alive (e_alive e) x = false) ->
    gval (readable lay) text a r -> plain_text a ->
    exists st c st2, run (state0 n objs) prog = Ret (st, log) /\ parser_make grows lay text st = (c, Ret true) /\ parser_drop c = Ret st2 /\
      in_use (s_mem st2) = in_use (s_mem st).
Proof.
  intros grows lay text n objs prog e log a r _ Hn Hr Hf Hg Hp. destruct (parse_ok grows lay text n objs prog e log Hn Hr Hf) as (st & c & ok & st2 & H1 & H2 & H3 & H4 & _ & _ & _ & _ & _ & H5 & _).
  assert (ok = true) as -> by (apply H4; eauto). exists st, c, st2. repeat (split; [assumption|]). apply (H5 a r Hg). exact Hp.
Qed.
Print Assumptions C63_storage_partial.

(** Every other text of the grammar loses storage, every time; no text gives back more than it took. *)
Theorem C63_storage_refuted :
  (forall grows lay text n objs prog e log a r, short_text text -> 7 + 2 * length text <= n -> arun (env0 n) prog = Some (e, log) ->
    (forall x, x <> v_args -> x <> v_rets -> is_alive (e_alive e) x = false) ->
    gval (readable lay) text a r -> ~ plain_text a ->
    exists st c st2, run (state0 n objs) prog = Ret (st, log) /\ parser_make grows lay text st = (c, Ret true) /\ parser_drop c = Ret st2 /\
      in_use (s_mem st) < in_use (s_mem st2)) /\
  (forall grows lay text n objs prog e log, short_text text -> 7 + 2 * length text <= n -> arun (env0 n) prog = Some (e, log) ->
    (forall x, x <> v_args -> x <> v_rets -> is_alive (e_alive e) x = false) ->
    exists st c ok st2, run (state0 n objs) prog = Ret (st, log) /\ parser_make grows lay text st = (c, Ret ok) /\ parser_drop c = Ret st2 /\
      in_use (s_mem st) <= in_use (s_mem st2)).
Proof.
  split.
  - intros grows lay text n objs prog e log a r _ Hn Hr Hf Hg Hp. destruct (parse_ok grows lay text n objs prog e log Hn Hr Hf) as (st & c & ok & st2 & H1 & H2 & H3 & H4 & _ & _ & _ & _ & H5 & H6 & _).
    assert (ok = true) as -> by (apply H4; eauto). exists st, c, st2. repeat (split; [assumption|]). assert (in_use (s_mem st2) <> in_use (s_mem st)) by (intros E; apply Hp; now apply (H6 a r Hg)). lia.
  - intros grows lay text n objs prog e log _ Hn Hr Hf. destruct (parse_ok grows lay text n objs prog e log Hn Hr Hf) as (st & c & ok & st2 & H1 & H2 & H3 & _ & _ & _ & _ & _ & H5 & _). exists st, c, ok, st2. repeat (split; [assumption|]). exact H5.
Qed.
Print Assumptions C63_storage_refuted.

(** How much exactly, for every text of the grammar and wherever the vector moves its elements: [parser_loss] in
    JsonLossSpec.v, which looks at the text alone. *)
Theorem C63_storage_exact :
  forall grows lay text n objs prog e log a r, short_text text -> 7 + 2 * length text <= n -> arun (env0 n) prog = Some (e, log) ->
    (forall x, x <> v_args -> x <> v_rets -> is_alive (e_alive e) x = false) ->
    gval (readable lay) text a r ->
    exists st c st2, run (state0 n objs) prog = Ret (st, log) /\ parser_make grows lay text st = (c, Ret true) /\ parser_drop c = Ret st2 /\
      in_use (s_mem st2) = in_use (s_mem st) + parser_loss grows a.
Proof.
  intros grows lay text n objs prog e log a r _ Hn Hr Hf Hg. destruct (parse_ok grows lay text n objs prog e log Hn Hr Hf) as (st & c & ok & st2 & H1 & H2 & H3 & H4 & _ & _ & _ & _ & _ & _ & _ & H5).
  assert (ok = true) as -> by (apply H4; eauto). exists st, c, st2. repeat (split; [assumption|]). exact (H5 a r Hg).
Qed.
Print Assumptions C63_storage_exact.

(** ** C64: EniBase on the memory *)

(** The constructor exits with status 87 exactly for texts that are not of the grammar; otherwise m_Args holds what the
    text denotes and m_ReturnValues an empty array, and destruction is without undefined behaviour. *)
Theorem C64_base_memory :
  forall grows lay text n objs prog e log, short_text text -> 7 + 2 * length text <= n -> arun (env0 n) prog = Some (e, log) ->
    (forall x, is_alive (e_alive e) x = false) ->
    exists st, run (state0 n objs) prog = Ret (st, log) /\
      ((forall a r, ~ gval (readable lay) text a r) -> base_make grows lay text st = Exit 87) /\
      (forall a r, gval (readable lay) text a r ->
         exists st1 st2, base_make grows lay text st = Ret st1 /\ content st1 v_args = Ret (denote a) /\ content st1 v_rets = Ret (TArr []) /\
           (forall x, x <> v_args -> x <> v_rets -> is_alive (s_alive st1) x = false) /\
           base_drop st1 = Ret st2 /\ (forall x, is_alive (s_alive st2) x = false) /\
           (** and it loses storage unless the text is as in [C63_storage_partial] *)
           in_use (s_mem st) <= in_use (s_mem st2) /\ (in_use (s_mem st2) = in_use (s_mem st) <-> plain_text a)).
Proof. intros grows lay text n objs prog e log _. exact (base_ok grows lay text n objs prog e log). Qed.
Print Assumptions C64_base_memory.

(** ** Cases *)
Definition near : layout := mkL 1000 10 20.
Definition flat : bytes := T "[true,false]".
Definition one : bytes := T "[12,[]]".
Definition bad : bytes := T "[12,[3".
Definition dq : bytes := [x22].
Definition obj : bytes := T "{" ++ dq ++ T "a" ++ dq ++ T ":true," ++ dq ++ T "a" ++ dq ++ T ":{" ++ dq ++ T "b" ++ dq ++ T ":[false]}}".

(** the number of objects in use after the parser and after its destruction, and the content of the root *)
Definition try (text : bytes) : outcome (bool * tree * nat * nat) :=
  let (c, r) := parser_make (fun _ => true) near text (state0 (7 + 2 * length text) []) in
  ok <- r ;; t <- content (h_mem c) v_root ;; st <- parser_drop c ;; Ret (ok, t, in_use (s_mem (h_mem c)), in_use (s_mem st)).
Example C62_cases :
  try flat = Ret (true, TArr [TBool true; TBool false], 1, 0) /\
  try obj = Ret (true, TObj [(T "a", TObj [(T "b", TArr [TBool false])])], 3, 0) /\
  (exists k m, try one = Ret (true, TArr [TInt 12; TArr []], k, m) /\ 0 < m) /\
  (exists k m, try bad = Ret (false, TUndef, k, m) /\ 0 < m).
Proof. split; [vm_compute; reflexivity|]. split; [vm_compute; reflexivity|]. split; do 2 eexists; (split; [vm_compute; reflexivity|lia]). Qed.

(** the hypotheses are met, with values of the program alive *)
Example C62_hypotheses :
  exists e log, arun (env0 (7 + 2 * length flat)) [New v_args (CStr (T "kept")); New v_rets CArr] = Some (e, log) /\
    (forall x, x <> v_args -> x <> v_rets -> is_alive (e_alive e) x = false).
Proof.
  do 2 eexists. split; [reflexivity|]. intros x Ha Hr. unfold v_args, v_rets in *. unfold is_alive. cbn [e_alive].
  do 5 (destruct x as [|x]; [reflexivity|]). do 2 (destruct x as [|x]; [lia|]). vm_compute. do 25 (destruct x as [|x]; [reflexivity|]). reflexivity.
Qed.
Example C63_plain : plain_text (AObj [(T "a", ABool true); (T "a", AObj [(T "b", AArr [ABool false])])]) /\ ~ plain_text (AArr [AArr []]).
Proof.
  split; cbn [plain_text].
  - split.
    + intros m1 k v m2 E Hin. destruct m1 as [|m m1]; cbn [app] in E; [injection E as _ <- _; eauto|]. injection E as _ E. destruct m1 as [|m0 m1]; cbn [app] in E; [injection E as _ _ <-; destruct Hin|]. injection E as _ E. destruct m1; discriminate.
    + cbn. repeat split. { intros m1 k v m2 E Hin. destruct m1 as [|m m1]; cbn [app] in E; [injection E as _ _ <-; destruct Hin|]. injection E as _ E. destruct m1; discriminate. } constructor; [eauto|constructor].
  - intros H. inversion H as [|x l (b & E) _]. discriminate.
Qed.
Example C64_case :
  (st <- base_make (fun _ => false) near obj (state0 (7 + 2 * length obj) []) ;; t <- content st v_args ;; u <- content st v_rets ;; st' <- base_drop st ;; Ret (t, u, in_use (s_mem st'))) =
    Ret (TObj [(T "a", TObj [(T "b", TArr [TBool false])])], TArr [], 0) /\
  base_make (fun _ => false) near bad (state0 (7 + 2 * length bad) []) = Exit 87.
Proof. split; vm_compute; reflexivity. Qed.
(** 36 objects for the text below; two more, the 7 and the string read before, if the vector moves its elements at the third
    array or object *)
Definition mixed : bytes := T "[7,[" ++ dq ++ T "s" ++ dq ++ T ",{" ++ dq ++ T "k" ++ dq ++ T ":1," ++ dq ++ T "k" ++ dq ++ T ":2}]]".
Definition mixed_ast : ast := AArr [AInt 7; AArr [AStr (T "s"); AObj [(T "k", AInt 1); (T "k", AInt 2)]]].
Definition at_third (p : nat) : bool := (p =? 2)%nat.
Definition left_over (grows : nat -> bool) (text : bytes) : outcome (bool * nat) :=
  let (c, r) := parser_make grows near text (state0 (7 + 2 * length text) []) in
  ok <- r ;; st <- parser_drop c ;; Ret (ok, in_use (s_mem st)).
Example C63_exact_case :
  left_over (fun _ => false) mixed = Ret (true, parser_loss (fun _ => false) mixed_ast) /\
  left_over at_third mixed = Ret (true, parser_loss at_third mixed_ast) /\
  parser_loss (fun _ => false) mixed_ast = 36 /\ parser_loss at_third mixed_ast = 38.
Proof. vm_compute. auto. Qed.

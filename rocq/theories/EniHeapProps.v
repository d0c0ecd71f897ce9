(** Properties C68 and C69: calls of the C functions of operations on the memory. *)
From Coq Require Import String.
From Verif Require Import Base JsonModel JsonSpec JsonDenotes EniModel EniHeapSpec ValueSpec ValueModel JsonHeapSpec JsonHeapModel JsonLossSpec EniHeapModel EniHeapProof EniProps.
From Coq Require Import List NArith ZArith Bool Lia.
From Coq.Init Require Import Byte.
Import ListNotations.
Local Open Scope list_scope.

(** In all theorems [prog] is any program over values run before, none of its values alive any more; [n] is the number of
    variables, enough for the parser.  [short_text] as in JsonHeapProps.v. *)

(** ** C68: a program of calls *)

(** Any calls of OP_gas and OP_run of any classes, one after the other, with texts for arrays: each answers what it would
    answer alone, as its virtual functions say; undefined behaviour, exceptions and divergence are those of the virtual
    functions.  Afterwards no value is alive. *)
Theorem C68_calls :
  forall n objs prog e log ks args, arun (env0 n) prog = Some (e, log) -> (forall x, is_alive (e_alive e) x = false) ->
    Forall2 takes ks args -> Forall (fun k => short_text (cstr (k_buf k)) /\ 7 + 2 * length (cstr (k_buf k)) <= n) ks ->
    exists st st', run (state0 n objs) prog = Ret (st, log) /\
      do_calls ks st = (as_ <- answers ks args ;; Ret (st', as_)) /\
      (forall as_, answers ks args = Ret as_ -> forall x, is_alive (s_alive st') x = false).
Proof.
  intros n objs prog e log ks args Hr Hd Ht Hf. destruct (calls_memory n objs prog e log ks args Hr Hd Ht) as (st & st' & E1 & E2 & R). { eapply Forall_impl; [|exact Hf]. intros k []. assumption. }
  exists st, st'. split; [exact E1|]. split; [exact E2|]. intros as_ Ha. apply (R as_ Ha).
Qed.
Print Assumptions C68_calls.

(** With any other text a call ends the process with status 87, or is undefined if the text is one of the grammar. *)
Theorem C68_other_texts :
  forall n objs prog e log k, arun (env0 n) prog = Some (e, log) -> (forall x, is_alive (e_alive e) x = false) ->
    short_text (cstr (k_buf k)) -> 7 + 2 * length (cstr (k_buf k)) <= n ->
    exists st, run (state0 n objs) prog = Ret (st, log) /\
      ((forall a r, ~ gval (readable (k_lay k)) (cstr (k_buf k)) a r) -> do_call k st = Exit 87) /\
      (forall a r, gval (readable (k_lay k)) (cstr (k_buf k)) a r -> (forall l, a <> AArr l) -> do_call k st = UB TypeConfusion).
Proof. intros n objs prog e log k Hr Hd _. exact (call_other n objs prog e log k Hr Hd). Qed.
Print Assumptions C68_other_texts.

(** These are the answers of EniModel.v, if parse() there reads the same from values as here from their contents. *)
Theorem C68_same_answers :
  forall (c : hclass) p lay buf l r,
    (forall s vs, Forall2 denotes vs l -> p s vs = h_parse c s (map denote l)) ->
    (N.of_nat (length (cstr buf)) < 2^28)%N -> gval (readable lay) (cstr buf) (AArr l) r -> Forall short_keys l ->
    gas_answer c l = (n <- c_gas (as_op c p) lay buf ;; Ret (Gas n)) /\
    run_answer c l = (t <- c_run (as_op c p) lay buf ;; Ret (match t with Some t => Text t | None => Nothing end)).
Proof.
  intros c p lay buf l r Hp Hn Hg Hk. apply (answers_same c p lay buf l r Hp); [|exact Hg]. exact (C49_arguments_partial (as_op c p) lay buf l r Hn Hg Hk).
Qed.
Print Assumptions C68_same_answers.

(** ** C69: storage *)

(** Calls give back all storage if they return nothing and their arguments are as in [C63_storage_partial].

    Missing: all other calls, see [C69_storage_refuted]. *)
Theorem C69_storage_partial :
  forall n objs prog e log ks args as_, arun (env0 n) prog = Some (e, log) -> (forall x, is_alive (e_alive e) x = false) ->
    Forall2 takes ks args -> Forall (fun k => short_text (cstr (k_buf k)) /\ 7 + 2 * length (cstr (k_buf k)) <= n) ks ->
    answers ks args = Ret as_ -> Forall2 spares ks args ->
    exists st st', run (state0 n objs) prog = Ret (st, log) /\ do_calls ks st = Ret (st', as_) /\ in_use (s_mem st') = in_use (s_mem st).
Proof.
  intros n objs prog e log ks args as_ Hr Hd Ht Hf Ha Hs. destruct (calls_memory n objs prog e log ks args Hr Hd Ht) as (st & st' & E1 & E2 & R). { eapply Forall_impl; [|exact Hf]. intros k []. assumption. }
  exists st, st'. split; [exact E1|]. rewrite Ha in E2. split; [exact E2|]. apply (R as_ Ha). exact Hs.
Qed.
Print Assumptions C69_storage_partial.

(** All others lose storage, and at least: for every return value the Value made by emplace_back, and if it is not a
    boolean the integer or string in it and that in the array. *)
Theorem C69_storage_refuted :
  forall n objs prog e log ks args as_, arun (env0 n) prog = Some (e, log) -> (forall x, is_alive (e_alive e) x = false) ->
    Forall2 takes ks args -> Forall (fun k => short_text (cstr (k_buf k)) /\ 7 + 2 * length (cstr (k_buf k)) <= n) ks ->
    answers ks args = Ret as_ ->
    exists st st', run (state0 n objs) prog = Ret (st, log) /\ do_calls ks st = Ret (st', as_) /\
      in_use (s_mem st) + lost ks args <= in_use (s_mem st') /\
      (~ Forall2 spares ks args -> in_use (s_mem st) < in_use (s_mem st')).
Proof.
  intros n objs prog e log ks args as_ Hr Hd Ht Hf Ha. destruct (calls_memory n objs prog e log ks args Hr Hd Ht) as (st & st' & E1 & E2 & R). { eapply Forall_impl; [|exact Hf]. intros k []. assumption. }
  exists st, st'. split; [exact E1|]. rewrite Ha in E2. split; [exact E2|]. destruct (R as_ Ha) as (_ & R1 & R2). pose proof (lost_le ks args). split; [lia|]. intros Hn.
  assert (in_use (s_mem st') <> in_use (s_mem st)) by (intros E; apply Hn; now apply R2). lia.
Qed.
Print Assumptions C69_storage_refuted.

(** How much exactly: [calls_loss] in JsonLossSpec.v, which looks at the arguments and the return values alone. *)
Theorem C69_storage_exact :
  forall n objs prog e log ks args as_, arun (env0 n) prog = Some (e, log) -> (forall x, is_alive (e_alive e) x = false) ->
    Forall2 takes ks args -> Forall (fun k => short_text (cstr (k_buf k)) /\ 7 + 2 * length (cstr (k_buf k)) <= n) ks ->
    answers ks args = Ret as_ ->
    exists st st', run (state0 n objs) prog = Ret (st, log) /\ do_calls ks st = Ret (st', as_) /\
      in_use (s_mem st') = in_use (s_mem st) + calls_loss ks args.
Proof.
  intros n objs prog e log ks args as_ Hr Hd Ht Hf Ha. destruct (calls_memory n objs prog e log ks args Hr Hd Ht) as (st & st' & E1 & E2 & R). { eapply Forall_impl; [|exact Hf]. intros k []. assumption. }
  exists st, st'. split; [exact E1|]. rewrite Ha in E2. split; [exact E2|]. now destruct (R as_ Ha) as (_ & R1 & _).
Qed.
Print Assumptions C69_storage_exact.

(** ** Cases *)

(** eni_reverse.cpp:18-31 on contents *)
Definition reverse_h : hclass :=
  mkHC bytes []
    (fun s l => match l with [] => (s, Throw OutOfRangeVector) | TStr t :: _ => (t, Ret true) | _ => (s, UB TypeConfusion) end)
    (fun s => Ret (u64 (N.of_nat (length s) * 10)))
    (fun s => (s, [RetStr (rev s)], Ret true)).
Lemma reverse_h_parse : forall l s vs, Forall2 denotes vs l -> oparse reverse_op s vs = h_parse reverse_h s (map denote l).
Proof. intros l s vs H. destruct H as [|v a vs l H _]; [reflexivity|]. cbn [oparse reverse_op]. rewrite EniProof.arg_head. destruct H; reflexivity. Qed.
(** it is the class of EniModel.v *)
Example C68_reverse :
  forall lay buf l r, (N.of_nat (length (cstr buf)) < 2^28)%N -> gval (readable lay) (cstr buf) (AArr l) r -> Forall short_keys l ->
    run_answer reverse_h l = (t <- c_run reverse_op lay buf ;; Ret (match t with Some t => Text t | None => Nothing end)).
Proof. intros lay buf l r Hn Hg Hk. apply (C68_same_answers reverse_h (oparse reverse_op) lay buf l r); auto using reverse_h_parse. Qed.

(** a class that returns nothing *)
Definition quiet_h : hclass :=
  mkHC bool false (fun s l => match l with TBool b :: _ => (b, Ret true) | _ => (s, Ret false) end) (fun _ => Ret 9%N) (fun s => (s, [], Ret s)).
Definition abc : bytes := T "[" ++ q ++ T "abc" ++ q ++ T "]".
Definition calls : list call :=
  [mkCall true reverse_h (abc ++ [x00; x41]) low (fun _ => true); mkCall false reverse_h abc low (fun _ => false);
   mkCall false quiet_h (T "[true]") low (fun _ => true); mkCall false quiet_h (T "[false]") low (fun _ => true); mkCall true quiet_h (T "[]") low (fun _ => true)].
Definition calls_args : list (list ast) := [[AStr (T "abc")]; [AStr (T "abc")]; [ABool true]; [ABool false]; []].
Example C68_case :
  answers calls calls_args = Ret [Gas 30; Text (T "[" ++ q ++ T "cba" ++ q ++ T "]"); Text (T "[]"); Nothing; Gas 1500] /\
  (exists st, do_calls calls (state0 30 []) = Ret (st, [Gas 30; Text (T "[" ++ q ++ T "cba" ++ q ++ T "]"); Text (T "[]"); Nothing; Gas 1500]) /\ 3 <= in_use (s_mem st)) /\
  (exists st as_, do_calls (skipn 2 calls) (state0 30 []) = Ret (st, as_) /\ in_use (s_mem st) = 0) /\
  lost calls calls_args = 3 /\ Forall2 spares (skipn 2 calls) (skipn 2 calls_args) /\
  do_call (mkCall false quiet_h (T "7") low (fun _ => true)) (state0 30 []) = UB TypeConfusion /\
  do_call (mkCall false quiet_h (T "[7") low (fun _ => true)) (state0 30 []) = Exit 87.
Proof.
  split; [vm_compute; reflexivity|]. split. { eexists. split; [vm_compute; reflexivity|]. vm_compute. lia. }
  split. { do 2 eexists. split; [vm_compute; reflexivity|]. vm_compute. reflexivity. }
  split; [reflexivity|]. split. { repeat constructor; cbn; eauto. } split; vm_compute; reflexivity.
Qed.
(** the hypotheses are met by the calls above, after a program that made and destroyed a value *)
Lemma short_enough s : (N.of_nat (length s) < 65536)%N -> short_text s.
Proof. intros Hs pre t k r -> Hk. apply JsonProof.gkey_len in Hk. rewrite app_length in Hs. lia. Qed.
Example C68_hypotheses :
  (exists e log, arun (env0 30) [New 3 (CStr abc); Destroy 3] = Some (e, log) /\ forall x, is_alive (e_alive e) x = false) /\
  Forall2 takes calls calls_args /\ Forall (fun k => short_text (cstr (k_buf k)) /\ 7 + 2 * length (cstr (k_buf k)) <= 30) calls.
Proof.
  split; [|split].
  - do 2 eexists. split; [reflexivity|]. intros x. unfold is_alive. vm_compute. do 30 (destruct x as [|x]; [reflexivity|]). destruct x; reflexivity.
  - assert (HS : takes (mkCall true reverse_h (abc ++ [x00; x41]) low (fun _ => true)) [AStr (T "abc")]).
    { exists []. apply (G_arr _ [] (q ++ T "abc" ++ q ++ T "]")); [constructor|]. apply (GE_last _ _ _ [] []); [|constructor]. apply (G_str _ [] (T "abc" ++ q ++ T "]")); [constructor|]. repeat (apply GC_plain; [discriminate|discriminate|]). constructor. }
    assert (HB : forall g c b f, takes (mkCall g c (T "[" ++ literal b ++ T "]") low f) [ABool b]).
    { intros g c b f. exists []. assert (E : cstr (T "[" ++ literal b ++ T "]") = [x5b] ++ literal b ++ T "]") by (destruct b; reflexivity). cbn [k_lay k_buf]. rewrite E. apply (G_arr _ [] (literal b ++ T "]")); [constructor|]. apply (GE_last _ _ _ [] []); [|constructor]. apply (G_bool _ []); [constructor|]. destruct b; reflexivity. }
    constructor; [exact HS|]. constructor; [exact HS|]. constructor; [exact (HB _ _ true _)|]. constructor; [exact (HB _ _ false _)|]. constructor; [|constructor].
    exists []. apply (G_arr0 _ [] []); constructor.
  - repeat constructor; try (apply short_enough; vm_compute; reflexivity); vm_compute; lia.
Qed.
(** the first two calls lose five and eight objects: the string in the array m_Args, and four copies of it made by the parser
    or by the assignment of its root; the second also what emplace_back made.  The others lose nothing. *)
Example C69_case :
  (exists st, do_calls calls (state0 30 []) = Ret (st, [Gas 30; Text (T "[" ++ q ++ T "cba" ++ q ++ T "]"); Text (T "[]"); Nothing; Gas 1500]) /\ in_use (s_mem st) = 13) /\
  map (fun p => call_loss (fst p) (snd p)) (combine calls calls_args) = [5; 8; 0; 0; 0] /\ calls_loss calls calls_args = 13.
Proof. split; [eexists; split; vm_compute; reflexivity|]. split; vm_compute; reflexivity. Qed.

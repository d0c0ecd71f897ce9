(** Property C103: calls of the C functions of operations when memory runs out. *)
From Coq Require Import String.
From Verif Require Import Base JsonModel JsonSpec JsonDenotes EniModel EniHeapSpec ValueSpec ValueModel ValueFaultModel JsonHeapSpec JsonHeapModel JsonOomSpec JsonOomModel EniHeapModel EniOomSpec EniOomModel EniOomSpec2 EniOomProof EniOomProof2 EniProps.
From Coq Require Import List NArith ZArith Bool Lia Arith.
From Coq.Init Require Import Byte.
Import ListNotations.
Local Open Scope list_scope.

(** In all theorems: [alloc m] says whether the m-th request for memory is granted, for any [alloc]; [c] counts the requests
    made before; [full m]: a std::ostringstream with m characters asks for more room; [prog] is any program over values run
    before, none of its values alive any more; [n] is the number of variables, enough for the parser; [k] is a call of
    OP_gas or OP_run of any class with a text for the array [l].  [call_answer k l] is what C68 says it answers. *)

(** ** C103 *)

(** Whatever is refused: gas that is answered is the gas of the call; a text that is answered is the text of the call or a
    beginning of it; and a null pointer is answered only by a call that answers it with enough memory, or a text. *)
Theorem C103_answers_partial :
  forall alloc full n objs prog e log k l c, arun (env0 n) prog = Some (e, log) -> (forall x, is_alive (e_alive e) x = false) ->
    short_text (cstr (k_buf k)) -> 7 + 2 * length (cstr (k_buf k)) <= n -> takes k l ->
    exists st, run (state0 n objs) prog = Ret (st, log) /\
      forall st' c' a, do_call_a alloc full k st c = Ret (st', c', Answered a) ->
        exists a0, call_answer k l = Ret a0 /\ short_of a0 a /\ (k_gas k = true -> a0 = a).
Proof. intros alloc full n objs prog e log k l c Hr Hd _. exact (answers_short alloc full n objs prog e log k l c Hr Hd). Qed.
Print Assumptions C103_answers_partial.

(** A call that repeats a name in its arguments, if at all, with values of one type answers, or throws for want of memory, or
    dereferences a null pointer, or ends as its virtual functions do. *)
Theorem C103_fate_partial :
  forall alloc full n objs prog e log k l c, arun (env0 n) prog = Some (e, log) -> (forall x, is_alive (e_alive e) x = false) ->
    short_text (cstr (k_buf k)) -> 7 + 2 * length (cstr (k_buf k)) <= n -> takes k l -> types_kept (AArr l) ->
    exists st, run (state0 n objs) prog = Ret (st, log) /\
      ((exists st' c' y, do_call_a alloc full k st c = Ret (st', c', y)) \/ do_call_a alloc full k st c = UB NullDeref \/
       ((forall a, call_answer k l <> Ret a) /\ do_call_a alloc full k st c = (_ <- call_answer k l ;; Diverge))).
Proof. intros alloc full n objs prog e log k l c Hr Hd _. exact (fates alloc full n objs prog e log k l c Hr Hd). Qed.
Print Assumptions C103_fate_partial.

(** If nothing is refused the call answers as in C68. *)
Theorem C103_enough :
  forall alloc full n objs prog e log k l c, arun (env0 n) prog = Some (e, log) -> (forall x, is_alive (e_alive e) x = false) ->
    short_text (cstr (k_buf k)) -> 7 + 2 * length (cstr (k_buf k)) <= n -> takes k l -> (forall m, alloc m = true) ->
    exists st st' c', run (state0 n objs) prog = Ret (st, log) /\ do_call_a alloc full k st c = (a <- call_answer k l ;; Ret (st', c', Answered a)).
Proof. intros alloc full n objs prog e log k l c Hr Hd _. exact (answers_enough alloc full n objs prog e log k l c Hr Hd). Qed.
Print Assumptions C103_enough.

(** Call after call, by a caller that catches the exceptions, each call with its own refusals: every call is served as if it
    were the only one.  In particular a call during which nothing is refused answers as in C68, whatever was refused before. *)
Theorem C103_calls_partial :
  forall n objs prog e log, arun (env0 n) prog = Some (e, log) -> (forall x, is_alive (e_alive e) x = false) ->
    exists st, run (state0 n objs) prog = Ret (st, log) /\
      forall ts ls st' ys, Forall2 (fun t l => short_text (cstr (k_buf (t_call t))) /\ 7 + 2 * length (cstr (k_buf (t_call t))) <= n /\ takes (t_call t) l) ts ls ->
        do_calls_a n ts st = Ret (st', ys) -> served_all ts ls ys.
Proof.
  intros n objs prog e log Hr Hd. destruct (calls_after n objs prog e log Hr Hd) as (st & E & H & _). exists st. split; [exact E|]. intros ts ls st' ys HF. apply H.
  induction HF as [|t l ts ls (_ & H1 & H2)]; constructor; [split|]; auto.
Qed.
Print Assumptions C103_calls_partial.

(** Calls that answer with enough memory and that repeat a name in their arguments, if at all, with values of one type: all
    of them come to their end, with an answer or an exception, unless one dereferences a null pointer. *)
Theorem C103_calls_fate_partial :
  forall n objs prog e log, arun (env0 n) prog = Some (e, log) -> (forall x, is_alive (e_alive e) x = false) ->
    exists st, run (state0 n objs) prog = Ret (st, log) /\
      forall ts ls, Forall2 (fun t l => short_text (cstr (k_buf (t_call t))) /\ 7 + 2 * length (cstr (k_buf (t_call t))) <= n /\ takes (t_call t) l /\
                                        types_kept (AArr l) /\ exists a, call_answer (t_call t) l = Ret a) ts ls ->
        (exists st' ys, do_calls_a n ts st = Ret (st', ys)) \/ do_calls_a n ts st = UB NullDeref.
Proof.
  intros n objs prog e log Hr Hd. destruct (calls_after n objs prog e log Hr Hd) as (st & E & _ & H). exists st. split; [exact E|]. intros ts ls HF. apply (H ts ls).
  induction HF as [|t l ts ls (_ & H1 & H2 & H3 & H4)]; constructor; [split; [split|split]|]; auto.
Qed.
Print Assumptions C103_calls_fate_partial.

(** ** Cases *)
Definition near : layout := mkL 1000 10 20.
Definition dq : bytes := [x22].
Definition all (_ : nat) : bool := true.
Definition but (k n : nat) : bool := negb (n =? k)%nat.
(** the first 15 characters of a stream are in the stream itself *)
Definition at15 (n : nat) : bool := (n =? 15)%nat.
(** eni_reverse.cpp:18-31 on contents *)
Definition reverse_h : hclass :=
  mkHC bytes []
    (fun s l => match l with [] => (s, Throw OutOfRangeVector) | TStr t :: _ => (t, Ret true) | _ => (s, UB TypeConfusion) end)
    (fun s => Ret (u64 (N.of_nat (length s) * 10)))
    (fun s => (s, [RetStr (rev s)], Ret true)).
Definition letters : bytes := T "abcdefghijklmnopqrst".
Definition buf : bytes := T "[" ++ dq ++ letters ++ dq ++ T "]".
Definition gas_call : call := mkCall true reverse_h buf near (fun _ => true).
Definition run_call : call := mkCall false reverse_h buf near (fun _ => true).
Definition try (alloc : nat -> bool) (k : call) : outcome (nat * reply) :=
  r <- do_call_a alloc at15 k (state0 (7 + 2 * length buf) []) 0 ;; (let '(_, c, y) := r in Ret (c, y)).

Lemma short_enough s : (N.of_nat (length s) < 65536)%N -> short_text s.
Proof. intros Hs pre t k r -> Hk. apply JsonProof.gkey_len in Hk. rewrite app_length in Hs. lia. Qed.
Lemma takes_letters g : takes (mkCall g reverse_h buf near (fun _ => true)) [AStr letters].
Proof.
  exists []. cbn [k_lay k_buf]. change (cstr buf) with ([x5b] ++ dq ++ letters ++ dq ++ [x5d]). apply (G_arr _ []); [constructor|]. apply (GE_last _ _ _ []); [|constructor].
  apply (G_str _ []); [constructor|]. cbn [letters T app]. vm_compute. repeat (apply GC_plain; [discriminate|discriminate|]). apply GC_end.
Qed.

(** The text may be cut without a sign: a refused request of the stream sets a bit that nobody looks at. *)
Theorem C103_truncated_refuted :
  exists alloc full k l n t u st c, short_text (cstr (k_buf k)) /\ 7 + 2 * length (cstr (k_buf k)) <= n /\ takes k l /\
    call_answer k l = Ret (Text (t ++ u)) /\ u <> [] /\ do_call_a alloc full k (state0 n []) 0 = Ret (st, c, Answered (Text t)).
Proof.
  exists (but 31), at15, run_call, [AStr letters], (7 + 2 * length buf), (T "[" ++ dq ++ T "tsrqponmlkjih"), (T "gfedcba" ++ dq ++ T "]").
  assert (H : exists st c, do_call_a (but 31) at15 run_call (state0 (7 + 2 * length buf) []) 0 = Ret (st, c, Answered (Text (T "[" ++ dq ++ T "tsrqponmlkjih")))) by (do 2 eexists; vm_compute; reflexivity).
  destruct H as (st & c & H). exists st, c. split; [apply short_enough; vm_compute; reflexivity|]. split; [vm_compute; lia|]. split; [apply takes_letters|]. split; [vm_compute; reflexivity|]. split; [discriminate|]. exact H.
Qed.
Print Assumptions C103_truncated_refuted.

(** OP_gas writes to what malloc gave it, null or not. *)
Theorem C103_gas_refuted :
  exists alloc full k l n a, k_gas k = true /\ short_text (cstr (k_buf k)) /\ 7 + 2 * length (cstr (k_buf k)) <= n /\ takes k l /\ types_kept (AArr l) /\
    call_answer k l = Ret a /\ do_call_a alloc full k (state0 n []) 0 = UB NullDeref.
Proof.
  exists (but 27), at15, gas_call, [AStr letters], (7 + 2 * length buf), (Gas 200). split; [reflexivity|]. split; [apply short_enough; vm_compute; reflexivity|]. split; [vm_compute; lia|]. split; [apply takes_letters|]. split; [cbn; auto|]. split; vm_compute; reflexivity.
Qed.
Print Assumptions C103_gas_refuted.

Example C103_cases :
  try all gas_call = Ret (28, Answered (Gas 200)) /\
  try all run_call = Ret (34, Answered (Text (T "[" ++ dq ++ rev letters ++ dq ++ T "]"))) /\
  (** the functor, a std::string, an Array, the room of an Array that stays empty *)
  try (but 0) gas_call = Ret (1, Refused) /\ try (but 1) run_call = Ret (1, Refused) /\ try (but 2) run_call = Ret (3, Refused) /\
  try (but 3) gas_call = Ret (28, Answered (Gas 200)) /\
  (** emplace_back; os.str(); strdup *)
  try (but 28) run_call = Ret (28, Refused) /\ try (but 32) run_call = Ret (33, Refused) /\ try (but 33) run_call = Ret (34, Answered Nothing).
Proof. vm_compute. repeat split. Qed.
(** the hypotheses are met by these calls, after a program that made and destroyed a value *)
Example C103_hypotheses :
  (exists e log, arun (env0 55) [New 3 (CStr letters); Destroy 3] = Some (e, log) /\ forall x, is_alive (e_alive e) x = false) /\
  short_text (cstr (k_buf run_call)) /\ 7 + 2 * length (cstr (k_buf run_call)) <= 55 /\ takes run_call [AStr letters] /\ types_kept (AArr [AStr letters]).
Proof.
  split. { do 2 eexists. split; [reflexivity|]. intros x. unfold is_alive. vm_compute. do 55 (destruct x as [|x]; [reflexivity|]). destruct x; reflexivity. }
  split; [apply short_enough; vm_compute; reflexivity|]. split; [vm_compute; lia|]. split; [apply takes_letters|cbn; auto].
Qed.
(** a run without memory for its last request but one, without memory for the functor, and with memory *)
Example C103_again :
  exists st, do_calls_a (7 + 2 * length buf) [mkTry run_call (but 32) at15; mkTry gas_call (but 0) at15; mkTry run_call all at15; mkTry gas_call all at15] (state0 (7 + 2 * length buf) []) =
    Ret (st, [Refused; Refused; Answered (Text (T "[" ++ dq ++ rev letters ++ dq ++ T "]")); Answered (Gas 200)]).
Proof. eexists. vm_compute. reflexivity. Qed.

(** The C functions without memory: what is answered is what is answered with memory, or a beginning of it. *)
From Verif Require Import Base JsonModel JsonSpec JsonDenotes ValueSpec ValueModel ValueFaultModel JsonHeapSpec JsonHeapModel JsonOomSpec JsonOomModel EniHeapSpec EniOomSpec EniHeapModel EniOomModel ValueFaultProof ValueProof8 JsonHeapProof2 JsonHeapProof3 JsonHeapProof4 JsonHeapProof5 EniHeapProof JsonOomProof JsonOomProof3 JsonOomProof7 JsonOomProof9.
From Verif Require JsonOomProof8.
From Coq Require Import List NArith ZArith Bool Lia Arith.
From Coq.Init Require Import Byte.
Import ListNotations.

(** ** The stream *)
Definition piece_text (p : piece) : bytes := match p with Chars s => s | Number z => int_text z end.
Definition whole_text (l : list piece) : bytes := flat_map piece_text l.
Lemma listed_text l : whole_text (listed l) = commas (map whole_text l).
Proof.
  induction l as [|x [|y l] IH]; [reflexivity|reflexivity|]. cbn [listed map commas] in *. unfold whole_text in *. rewrite flat_map_app. cbn [flat_map piece_text app]. now rewrite IH.
Qed.
Fixpoint no_object (v : jvalue) : Prop :=
  match v with JObj _ => False | JArr l => fold_right (fun x p => no_object x /\ p) True l | _ => True end.
Lemma pieces_print : forall v, no_object v -> print v = Ret (whole_text (pieces v)).
Proof.
  fix IH 1. intros [| | | |l|t] H; cbn [print pieces].
  - reflexivity.
  - unfold whole_text. cbn. now rewrite app_nil_r.
  - unfold whole_text. cbn. now destruct b.
  - unfold whole_text. cbn. now rewrite app_nil_r.
  - assert (E : sequence (map print l) = Ret (map whole_text (map pieces l))).
    { cbn [no_object] in H. induction l as [|v l IHl]; [reflexivity|]. destruct H as [Hv Hl]. cbn [map sequence]. rewrite (IH v Hv). cbn [bind]. rewrite (IHl Hl). reflexivity. }
    rewrite E. cbn [bind]. unfold whole_text at 2. cbn [flat_map piece_text app]. rewrite flat_map_app. fold (whole_text (listed (map pieces l))). rewrite listed_text. cbn [flat_map piece_text]. now rewrite app_nil_r.
  - destruct H.
Qed.

Section Fault.
  Variable alloc : nat -> bool.
  Variable full : nat -> bool.
  Notation put_text := (put_text alloc full).
  Notation put_all := (put_all alloc full).

  (** a stream has taken [s] or, with badbit set, a beginning *)
  Definition took (s : bytes) (o : ostr) : Prop := if o_bad o then exists u, s = o_text o ++ u else o_text o = s.
  Lemma put_text_took t : forall s o, took s o -> took (s ++ t) (put_text o t).
  Proof.
    induction t as [|b t IH]; intros s o H; [rewrite app_nil_r; exact H|]. unfold EniOomModel.put_text. cbn [fold_left]. change (b :: t) with ([b] ++ t). rewrite app_assoc. apply IH. unfold put_char, took in *.
    destruct (o_bad o) eqn:Eb. { rewrite Eb. destruct H as (u & ->). exists (u ++ [b]). now rewrite app_assoc. }
    rewrite H. destruct (full (length s)); [|reflexivity]. destruct (alloc (o_n o)); cbn [o_bad o_text]; [reflexivity|]. eauto.
  Qed.
  Lemma put_all_took l : forall s o o', took s o -> put_all o l = Some o' -> took (s ++ whole_text l) o'.
  Proof.
    induction l as [|p l IH]; intros s o o' H E; cbn [EniOomModel.put_all] in E. { injection E as <-. cbn. now rewrite app_nil_r. }
    unfold whole_text. cbn [flat_map]. rewrite app_assoc. destruct (put_piece alloc full o p) as [o1|] eqn:Ep; [|discriminate]. apply (IH _ o1); [|exact E]. destruct p as [t|z]; cbn [put_piece piece_text] in *.
    - injection Ep as <-. now apply put_text_took.
    - destruct (alloc (o_n o)); [|discriminate]. injection Ep as <-. now apply put_text_took.
  Qed.
  Lemma cstr_begin s : forall u, exists w, cstr (s ++ u) = cstr s ++ w.
  Proof. induction s as [|b s IH]; intros u; cbn [app cstr]; [eauto|]. destruct (beqb b NUL); [exists []; reflexivity|]. destruct (IH u) as (w & ->). exists w. reflexivity. Qed.

  Lemma text_short n v a n' : no_object v -> text_a alloc full n v = (n', Answered a) -> exists t, print v = Ret t /\ short_of (Text (cstr t)) a.
  Proof.
    intros Hv E. rewrite (pieces_print v Hv). eexists. split; [reflexivity|]. unfold text_a in E. destruct (put_all (mkO [] false n) (pieces v)) as [o|] eqn:Eo; [|discriminate].
    apply (put_all_took _ [] (mkO [] false n)) in Eo; [|reflexivity]. cbn [app] in Eo. destruct (negb (alloc (o_n o))); [discriminate|]. injection E as _ <-. destruct (alloc (S (o_n o))); cbn [short_of]; [|eauto].
    unfold took in Eo. destruct (o_bad o); [|exists []; now rewrite Eo, app_nil_r]. destruct Eo as (u & ->). destruct (cstr_begin (o_text o) u) as (w & ->). eauto.
  Qed.

  (** ** emplace_back *)
  Lemma emplace_near st n x k : nears (fun _ => True) (emplace_back st x k) (emplace_back_a alloc st n x k).
  Proof.
    unfold emplace_back, emplace_back_a. destruct (negb (alloc n) || negb (alloc (S n))); [exact I|].
    pose proof (construct_near alloc (s_mem st) (S (S n)) k) as G. destruct (construct (s_mem st) k) as [h v]. destruct (construct_a alloc (s_mem st) (S (S n)) k) as [[[h' c'] [w|]]|e|u| |q]; cbn [nearc bind] in *; [|exact I|discriminate| |discriminate|discriminate].
    - injection G as -> ->. apply nears_bind. intros w0 _. apply nears_bind. intros [a b] _. destruct b as [|  |vs|]; try (cbn; auto; fail).
      pose proof (assign_near alloc (set_block (h' ++ [Heap (BArr [w])]) a (BArr (vs ++ [mkV KUndef HGarbage]))) c' (a, At (length vs)) (length h', At 0)) as G.
      destruct (assign_a alloc _ c' _ _) as [[[h2 c2] []]|e|u| |q]; cbn [nears bind] in *; auto; try (rewrite G; reflexivity). destruct G as [G|G]; [left; rewrite G; reflexivity|auto].
    - destruct G as [G|G]; [discriminate|]. right. exact G.
  Qed.
  Lemma emplace_all_near l : forall st n x, nears (fun _ => True) (emplace_all st x l) (emplace_all_a alloc st n x l).
  Proof.
    induction l as [|r l IH]; intros st n x; cbn [emplace_all emplace_all_a]; [reflexivity|]. pose proof (emplace_near st n x (ret_ctor r)) as G.
    destruct (emplace_back_a alloc st n x (ret_ctor r)) as [[[s1 n1] []]|e|u| |q]; cbn [nears bind] in *; auto; try (rewrite G; reflexivity).
    - rewrite G. cbn [bind]. apply IH.
    - destruct G as [G|G]; [left; rewrite G; reflexivity|auto].
  Qed.

  (** ** The call after the constructor *)
  Definition near_call (n b : nat) (o : outcome answer) (r : outcome (state * nat * reply)) : Prop :=
    match r with
    | Ret (s, _, Answered a) => (exists a0, o = Ret a0 /\ short_of a0 a) /\ exists L, mem n b s none L
    | Ret (_, _, Refused) => True
    | Throw e => o = Throw e
    | UB u => u = NullDeref \/ o = UB u
    | Diverge => o = Diverge
    | Exit k => o = Exit k
    end.
  Lemma rets_no_object rs : no_object (JArr (map ret_value rs)).
  Proof. cbn [no_object]. induction rs as [|[] rs IH]; cbn; auto. Qed.
  Lemma gas_near c n b s l r L c1 : mem n b s (two (Some (TArr (map denote l))) (Some r)) L ->
    near_call n b (gas_answer c l) ('(_, a) <- get_gas c s (mkF c false false (h_init c)) ;; if negb (alloc c1) then UB NullDeref else st <- base_drop s ;; Ret (st, S c1, Answered a)).
  Proof.
    intros Hm. destruct (drop_mem _ _ _ _ _ _ Hm) as (s3 & E3 & Hm3). unfold get_gas, gas_answer. rewrite (check_two c _ _ _ _ _ _ Hm). destruct (h_parse c (h_init c) (map denote l)) as [o [[]|e|u| |x]]; cbn [bind f_op near_call]; auto.
    - destruct (h_gas c o) as [g|e|u| |x]; cbn [bind near_call]; auto. destruct (alloc c1); cbn [negb near_call]; auto. rewrite E3. cbn. eauto 6.
    - destruct (alloc c1); cbn [negb near_call]; auto. rewrite E3. cbn. eauto 6.
  Qed.
  Lemma run_near c n b s l L c1 : mem n b s (two (Some (TArr (map denote l))) (Some (TArr []))) L ->
    near_call n b (run_answer c l) ('(st, n, a) <- start_a alloc full c s c1 (mkF c false false (h_init c)) ;; match a with Refused => Ret (st, n, Refused) | Answered _ => st <- base_drop st ;; Ret (st, n, a) end).
  Proof.
    intros Hm. destruct (drop_mem _ _ _ _ _ _ Hm) as (s3 & E3 & Hm3). unfold start_a, run_answer. rewrite (check_two c _ _ _ _ _ _ Hm). destruct (h_parse c (h_init c) (map denote l)) as [o [[]|e|u| |x]]; cbn [bind f_op near_call]; auto.
    - rewrite (array_two _ _ _ _ _ _ _ Hm eq_refl). cbn [bind]. destruct (h_run c o) as [[o2 rs] r2]. destruct (m_emplace_all _ _ _ rs _ _ _ Hm) as (s2 & E2 & Hm2). pose proof (emplace_all_near rs s c1 v_rets) as G. rewrite E2 in G. cbn [app] in Hm2.
      destruct (emplace_all_a alloc s c1 v_rets rs) as [[[s2' n2] []]|e|u| |q]; cbn [nears bind near_call] in *; auto; try discriminate; [|destruct G as [G|G]; [discriminate|auto]].
      injection G as ->. destruct (drop_mem _ _ _ _ _ _ Hm2) as (s4 & E4 & Hm4). destruct r2 as [[]|e|u| |q]; cbn [bind near_call]; auto.
      + rewrite (mem_content _ _ _ _ _ v_rets _ Hm2 eq_refl). cbn [bind]. rewrite value_of_rets. destruct (text_a alloc full n2 _) as [n3 [a|]] eqn:Et; cbn [bind near_call]; auto. rewrite E4. cbn [bind near_call].
        destruct (text_short _ _ _ _ (rets_no_object rs) Et) as (t & -> & Hs). cbn [bind]. eauto 6.
      + rewrite E4. cbn [bind near_call]. split; [|eauto]. eexists. split; [reflexivity|]. cbn. auto.
    - rewrite E3. cbn [bind near_call]. split; [|eauto]. eexists. split; [reflexivity|]. cbn. auto.
  Qed.

  Definition made_a (k : call) (st : state) (c : nat) : outcome (state * nat * bool) := make_a alloc (k_grows k) (k_lay k) (k_buf k) st c.
  Lemma call_near k n b st l r c : 7 + 2 * length (cstr (k_buf k)) <= n -> mem n b st none 0 -> gval (readable (k_lay k)) (cstr (k_buf k)) (AArr l) r ->
    match made_a k st c with
    | Ret (_, _, true) => near_call n b (call_answer k l) (do_call_a alloc full k st c)
    | Ret (s1, c1, false) => do_call_a alloc full k st c = Ret (s1, c1, Refused)
    | UB u => do_call_a alloc full k st c = UB u
    | Throw e => do_call_a alloc full k st c = Throw e
    | Diverge => do_call_a alloc full k st c = Diverge
    | Exit q => do_call_a alloc full k st c = Exit q
    end.
  Proof.
    intros Hn Hm Hg. destruct (base_mem (k_grows k) (k_lay k) _ n b st Hn Hm) as [_ HB]. destruct (HB _ _ Hg) as (s1 & L1 & E1 & Hm1 & _). clear HB. cbn [denote] in Hm1.
    assert (HE : forall s1' c1, made_a k st c = Ret (s1', c1, true) -> s1' = s1).
    { intros s1' c1. unfold made_a, make_a. destruct (negb (alloc c) || negb (alloc (S c))); [discriminate|]. pose proof (base_near alloc (k_grows k) (k_lay k) (cstr (k_buf k)) st (S (S c))) as HN. unfold base_make_a. destruct (f_base alloc _ _ _ _) as [c2 [[]|e|u| |x]]; cbn [near_base] in HN; try discriminate.
      - intros [= <- _]. congruence.
      - destruct e; try discriminate. destruct (unwind _ _); discriminate. }
    unfold do_call_a, call_answer, call_gas_a, call_run_a. fold (made_a k st c). destruct k as [g cl buf lay grows]. cbn [k_gas k_class k_buf k_lay k_grows] in *.
    change (make_a alloc grows lay buf st c) with (made_a (mkCall g cl buf lay grows) st c). destruct (made_a (mkCall g cl buf lay grows) st c) as [[[s1' c1] []]|e|u| |x] eqn:Em; cbn [bind]; try (destruct g; reflexivity).
    rewrite (HE _ _ eq_refl) in *. cbn [negb]. destruct g; [eapply gas_near; eauto|eapply run_near; eauto].
  Qed.
End Fault.

(** ** Enough memory *)
Section Enough.
  Variable alloc : nat -> bool.
  Hypothesis yes : forall n, alloc n = true.
  Variable full : nat -> bool.

  Lemma put_text_yes t : forall o, o_bad o = false -> exists n, put_text alloc full o t = mkO (o_text o ++ t) false n.
  Proof.
    induction t as [|b t IH]; intros [s bad n] H; cbn in H; subst bad. { exists n. cbn. now rewrite app_nil_r. }
    unfold put_text. cbn [fold_left]. fold (put_text alloc full (put_char alloc full (mkO s false n) b) t). unfold put_char. cbn [o_bad o_text o_n]. rewrite yes. cbn [o_text].
    destruct (full (length s)); destruct (IH (mkO (s ++ [b]) false (S n)) eq_refl) as (m1 & E1), (IH (mkO (s ++ [b]) false n) eq_refl) as (m2 & E2); cbn [o_text] in *; rewrite <- app_assoc in *; eauto.
  Qed.
  Lemma put_all_yes l : forall o, o_bad o = false -> exists n, put_all alloc full o l = Some (mkO (o_text o ++ whole_text l) false n).
  Proof.
    induction l as [|p l IH]; intros o H; cbn [put_all]. { exists (o_n o). cbn. rewrite app_nil_r. destruct o; cbn in *; now subst. }
    unfold whole_text. cbn [flat_map]. destruct p as [t|z]; cbn [put_piece piece_text].
    - destruct (put_text_yes t o H) as (m & ->). destruct (IH (mkO (o_text o ++ t) false m) eq_refl) as (m' & E). exists m'. rewrite E. cbn [o_text]. now rewrite app_assoc.
    - rewrite yes. destruct (put_text_yes (int_text z) (mkO (o_text o) (o_bad o) (S (o_n o))) H) as (m & ->). cbn [o_text]. destruct (IH (mkO (o_text o ++ int_text z) false m) eq_refl) as (m' & E). exists m'. rewrite E. cbn [o_text]. now rewrite app_assoc.
  Qed.
  Lemma text_yes n v : no_object v -> exists n' t, print v = Ret t /\ text_a alloc full n v = (n', Answered (Text (cstr t))).
  Proof.
    intros Hv. rewrite (pieces_print v Hv). unfold text_a. destruct (put_all_yes (pieces v) (mkO [] false n) eq_refl) as (m & ->). cbn [o_text o_n app]. rewrite !yes. do 2 eexists. split; reflexivity.
  Qed.
  Lemma emplace_yes st n x k : runs (emplace_back st x k) (emplace_back_a alloc st n x k).
  Proof.
    unfold emplace_back, emplace_back_a. rewrite !yes. cbn [negb orb].
    assert (Hc : exists c', construct_a alloc (s_mem st) (S (S n)) k = Ret (fst (construct (s_mem st) k), c', Got (snd (construct (s_mem st) k)))).
    { destruct k; cbn [construct construct_a fst snd]; unfold make; rewrite ?yes; cbn [negb orb andb ValueModel.held]; eauto. }
    destruct Hc as (c' & ->). cbn [bind]. destruct (construct (s_mem st) k) as [h v]. cbn [fst snd]. apply runs_bind. intros w. apply runs_bind. intros [a b]. destruct b as [| |vs|]; try reflexivity. apply (assign_ret alloc yes).
  Qed.
  Lemma emplace_all_yes l : forall st n x, runs (emplace_all st x l) (emplace_all_a alloc st n x l).
  Proof.
    induction l as [|r l IH]; intros st n x; cbn [emplace_all emplace_all_a runs]; [eauto|]. pose proof (emplace_yes st n x (ret_ctor r)) as G. destruct (emplace_back st x (ret_ctor r)) as [s1| | | |]; cbn [runs bind] in *; try (rewrite G; reflexivity).
    destruct G as (c & ->). cbn [bind]. apply IH.
  Qed.
  Lemma enough_call k n b st l r c : 7 + 2 * length (cstr (k_buf k)) <= n -> mem n b st none 0 -> gval (readable (k_lay k)) (cstr (k_buf k)) (AArr l) r ->
    exists st' c', do_call_a alloc full k st c = (a <- call_answer k l ;; Ret (st', c', Answered a)).
  Proof.
    intros Hn Hm Hg. destruct (base_mem (k_grows k) (k_lay k) _ n b st Hn Hm) as [_ HB]. destruct (HB _ _ Hg) as (s1 & L1 & E1 & Hm1 & _). clear HB. cbn [denote] in Hm1.
    assert (Em : exists c1, make_a alloc (k_grows k) (k_lay k) (k_buf k) st c = Ret (s1, c1, true)).
    { unfold make_a. rewrite !yes. cbn [negb orb]. pose proof (JsonOomProof8.base_same alloc yes (k_grows k) (k_lay k) (cstr (k_buf k)) st (S (S c))) as HN. rewrite E1 in HN. unfold base_make_a. destruct (f_base alloc _ _ _ _) as [c2 [[]|e|u| |x]]; cbn in HN; try discriminate. injection HN as ->. eauto. }
    destruct Em as (c1 & Em). destruct (drop_mem _ _ _ _ _ _ Hm1) as (s3 & E3 & _).
    destruct k as [g cl buf lay grows]. unfold do_call_a, call_answer, call_gas_a, call_run_a. cbn [k_gas k_class k_buf k_lay k_grows] in *. rewrite Em. cbn [bind negb]. destruct g.
    - exists s3, (S c1). unfold get_gas, gas_answer. rewrite (check_two cl _ _ _ _ _ _ Hm1). rewrite yes, E3. cbn [negb]. destruct (h_parse cl (h_init cl) (map denote l)) as [o [[]|e|u| |x]]; cbn [bind f_op]; try reflexivity. destruct (h_gas cl o); reflexivity.
    - unfold start_a, run_answer. rewrite (check_two cl _ _ _ _ _ _ Hm1). destruct (h_parse cl (h_init cl) (map denote l)) as [o [[]|e|u| |x]]; cbn [bind f_op]; try (exists st, 0; reflexivity).
      + rewrite (array_two _ _ _ _ _ _ _ Hm1 eq_refl). cbn [bind]. destruct (h_run cl o) as [[o2 rs] r2]. destruct (m_emplace_all _ _ _ rs _ _ _ Hm1) as (s2 & E2 & Hm2). pose proof (emplace_all_yes rs s1 c1 v_rets) as G. rewrite E2 in G. cbn [app runs] in *. destruct G as (c2 & ->). cbn [bind].
        destruct (drop_mem _ _ _ _ _ _ Hm2) as (s4 & E4 & _). destruct r2 as [[]|e|u| |x]; cbn [bind]; try (exists st, 0; reflexivity).
        * rewrite (mem_content _ _ _ _ _ v_rets _ Hm2 eq_refl). cbn [bind]. rewrite value_of_rets. destruct (text_yes c2 _ (rets_no_object rs)) as (c3 & t & -> & ->). cbn [bind]. rewrite E4. exists s4, c3. reflexivity.
        * rewrite E4. exists s4, c2. reflexivity.
      + rewrite E3. exists s3, c1. reflexivity.
  Qed.
End Enough.

(** ** After any program *)
Section After.
  Variables alloc full : nat -> bool.
  Variables (n : nat) (objs : list block) (prog : list op) (e : env) (log : list (option exn)) (k : call) (l : list ast) (c : nat).
  Hypothesis Hr : arun (env0 n) prog = Some (e, log).
  Hypothesis Hd : forall x, is_alive (e_alive e) x = false.
  Hypothesis Hn : 7 + 2 * length (cstr (k_buf k)) <= n.
  Hypothesis Ht : takes k l.

  Lemma after : exists st b, run (state0 n objs) prog = Ret (st, log) /\ mem n b st none 0.
  Proof.
    destruct (start n objs prog e log Hr) as (st & b & E & Hm). exists st, b. split; [exact E|]. eapply mem_ext; [|exact Hm]. intros y. unfold look. now rewrite Hd.
  Qed.
  Lemma gas_is a : k_gas k = true -> call_answer k l = Ret a -> exists g, a = Gas g.
  Proof.
    intros E. unfold call_answer, gas_answer. rewrite E. destruct (h_parse _ _ _) as [s [[]|x|u| |q]]; cbn [bind]; try discriminate; [|intros [= <-]; eauto]. destruct (h_gas _ s); cbn [bind]; try discriminate. intros [= <-]. eauto.
  Qed.
  Theorem answers_short : exists st, run (state0 n objs) prog = Ret (st, log) /\
    forall st' c' a, do_call_a alloc full k st c = Ret (st', c', Answered a) -> exists a0, call_answer k l = Ret a0 /\ short_of a0 a /\ (k_gas k = true -> a0 = a).
  Proof.
    destruct after as (st & b & E & Hm). exists st. split; [exact E|]. intros st' c' a Ea. destruct Ht as (r & Hg). pose proof (call_near alloc full k n b st l r c Hn Hm Hg) as H.
    assert (Hx : exists a0, call_answer k l = Ret a0 /\ short_of a0 a).
    { destruct (made_a alloc k st c) as [[[s1 c1] []]|x|u| |q]; rewrite Ea in H; try discriminate. exact (proj1 H). }
    destruct Hx as (a0 & E0 & Hs). exists a0. split; [exact E0|]. split; [exact Hs|]. intros Hk. destruct (gas_is a0 Hk E0) as (g & ->). destruct a; cbn in Hs; [exact Hs|destruct Hs; discriminate|destruct Hs as [|[]]; discriminate].
  Qed.
  Theorem fates : types_kept (AArr l) -> exists st, run (state0 n objs) prog = Ret (st, log) /\
    ((exists st' c' y, do_call_a alloc full k st c = Ret (st', c', y)) \/ do_call_a alloc full k st c = UB NullDeref \/
     ((forall a, call_answer k l <> Ret a) /\ do_call_a alloc full k st c = (_ <- call_answer k l ;; Diverge))).
  Proof.
    intros Hk. destruct Ht as (r & Hg). destruct (fate alloc (k_grows k) (k_lay k) (cstr (k_buf k)) n objs prog e log (S (S c)) (AArr l) r Hn Hr Hd Hg Hk) as (st & E & H). exists st. split; [exact E|].
    destruct after as (st0 & b & E0 & Hm). rewrite E in E0. injection E0 as <-. pose proof (call_near alloc full k n b st l r c Hn Hm Hg) as HC. unfold made_a, make_a in HC. destruct (negb (alloc c) || negb (alloc (S c))). { left. eauto. }
    destruct H as [(s1 & c1 & H & _)|[(s1 & c1 & H & _)|H]]; rewrite H in HC.
    - destruct (do_call_a alloc full k st c) as [[[s2 c2] y]|x|u| |q]; cbn [near_call] in HC.
      + left. eauto.
      + right. right. rewrite HC. split; [discriminate|reflexivity].
      + destruct HC as [->|HC]; [auto|]. right. right. rewrite HC. split; [discriminate|reflexivity].
      + right. right. rewrite HC. split; [discriminate|reflexivity].
      + right. right. rewrite HC. split; [discriminate|reflexivity].
    - left. eauto.
    - auto.
  Qed.
  Theorem answers_enough : (forall m, alloc m = true) -> exists st st' c', run (state0 n objs) prog = Ret (st, log) /\ do_call_a alloc full k st c = (a <- call_answer k l ;; Ret (st', c', Answered a)).
  Proof.
    intros yes. destruct after as (st & b & E & Hm). destruct Ht as (r & Hg). destruct (enough_call alloc yes full k n b st l r c Hn Hm Hg) as (st' & c' & H). exists st, st', c'. auto.
  Qed.
End After.

(** Calls of operations on the memory. *)
From Verif Require Import Base JsonModel JsonSpec JsonProof JsonProof2 JsonDenotes EniModel EniHeapSpec ValueSpec ValueModel ValueProof ValueProof2 ValueProof3 ValueProof4 ValueProof5 ValueProof6 ValueProof7 ValueProof8 JsonHeapSpec JsonHeapModel JsonHeapProof2 JsonHeapProof3 JsonHeapProof4 JsonLossSpec JsonHeapProof5 EniHeapModel.
From Coq Require Import List NArith ZArith Bool Lia Arith.
Import ListNotations.

(** ** emplace_back *)
Lemma child_assign_from al h e A p s t0 t1 u l v0 a0 lq vq Aq : invA al h e A -> eget e p = Found t1 -> child s t1 = Found t0 ->
  find_place (mkS al h) p = Ret l -> load h l = Ret v0 -> v_hold v0 = HPtr a0 ->
  load h lq = Ret vq -> owns h vq u Aq -> (forall x, cnt Aq x <= 1) -> cnt Aq a0 = 0 ->
  exists h', assign h (a0, s) lq = Ret h' /\ inv (mkS al h') (eset e p (set_child s u t1)).
Proof.
  intros Hi Ep Hch Fp Lp Hh Lq Oq Nq Zq.
  destruct (at_place _ _ _ _ _ _ Hi Ep) as (a & sl & b & v0' & A0 & Ar & Hp & Wp & Hc & Hs & Hl & Ho & _). rewrite Fp in Hp. injection Hp as ->. rewrite Lp in Hl. injection Hl as <-.
  assert (W : walk h root (At (fst p)) (snd p ++ [s]) = Ret (a0, s)).
  { rewrite (walk_cons _ _ _ _ _ Wp), Lp. cbn [bind]. destruct (owns_child _ _ _ _ _ _ Ho Hch) as (a1 & b1 & vc & B1 & Ac & B2 & Hp1 & _ & _ & _ & _ & He & _). rewrite He. congruence. }
  pose proof (eget_tget _ _ _ Ep) as Tp.
  assert (T : tget (At (fst p) :: snd p ++ [s]) (whole e) = Found t0). { change (At (fst p) :: snd p ++ [s]) with (full p ++ [s]). rewrite tget_app, Tp. cbn [tget]. now rewrite Hch. }
  destruct (assign_ok (snd p ++ [s]) (At (fst p)) h root (whole e) A t0 (a0, s) lq vq u Aq) as (h' & A' & E & Ho' & Hn' & _); auto.
  - eapply inv_pos; eauto.
  - apply Hi.
  - apply Hi.
  - exists h'. split; auto. exists A'. cbn [s_alive s_mem]. destruct (eset_whole e p (set_child s u t1)) as [E1 E2]. destruct Hi as (-> & Hlen & _). split; [reflexivity|]. split; [cbn [eset e_alive]; congruence|]. rewrite E1.
    change (At (fst p) :: snd p ++ [s]) with (full p ++ [s]) in Ho'. rewrite (tset_app _ _ _ _ _ Tp) in Ho'. cbn [tset] in Ho'. rewrite Hch in Ho'. auto.
Qed.
Lemma construct_ok h c h1 v : 0 < length h -> construct h c = (h1, v) ->
  exists ex Ac, h1 = h ++ ex /\ in_use ex = blocks (tree_of c) /\ (forall tl, owns (h1 ++ tl) v (tree_of c) Ac) /\ (forall y, cnt Ac y <= 1) /\ (forall y, y < length h -> cnt Ac y = 0) /\ (forall y, In y Ac -> y < length h1).
Proof.
  intros Hh E.
  assert (HC : forall b tl, cell_at ((h ++ [Heap b]) ++ tl) (length h) b). { intros b tl. unfold cell_at. rewrite <- app_assoc, nth_error_app2, Nat.sub_diag by lia. destruct (Nat.eqb_spec (length h) 0); [lia|reflexivity]. }
  assert (HN : (forall y, cnt [length h] y <= 1) /\ (forall y, y < length h -> cnt [length h] y = 0)).
  { split; intros y; [|intros Hy]; destruct (Nat.eq_dec (length h) y) as [<-|Hn]; rewrite ?cnt_one, ?cnt_other by auto; lia. }
  assert (HL : forall b y, In y [length h] -> y < length (h ++ [Heap b])). { intros b y [<-|[]]. rewrite app_length. cbn. lia. }
  destruct HN as [N1 N2]. destruct c; cbn [construct tree_of blocks] in *; injection E as <- <-.
  - exists [], []. rewrite app_nil_r. splits; auto; try (intros; constructor); try (cbn; lia); try (intros y []).
  - exists [], []. rewrite app_nil_r. splits; auto; try (intros; constructor); try (cbn; lia); try (intros y []).
  - eexists [_], [length h]. splits; auto; intros; try reflexivity; try apply HL; auto; constructor; apply HC.
  - eexists [_], [length h]. splits; auto; intros; try reflexivity; try apply HL; auto; constructor; apply HC.
  - eexists [_], [length h]. splits; auto; intros; try reflexivity; try apply HL; auto; try (apply (O_arr _ _ [] [] []); [apply HC|constructor]).
  - eexists [_], [length h]. splits; auto; intros; try reflexivity; try apply HL; auto; try (apply (O_obj _ _ [] [] []); [apply HC|reflexivity|constructor|constructor]).
Qed.

Lemma m_emplace n b s f L x l c : mem n b s f L -> f x = Some (TArr l) ->
  exists s', emplace_back s x c = Ret s' /\ mem n b s' (upd f x (Some (TArr (l ++ [tree_of c])))) (L + S (blocks (tree_of c))).
Proof.
  intros (e & (A & Hi) & Hv & Hu) Ex. destruct (view_get _ _ _ _ _ Hv Ex) as [_ Gx]. destruct s as [al h]. cbn [s_alive s_mem] in *. pose proof (inv_pos _ _ _ _ Hi) as Hpos.
  unfold emplace_back. cbn [s_mem s_alive]. destruct (construct h c) as [h1 v] eqn:Ec. destruct (construct_ok h c h1 v Hpos Ec) as (ex & Ac & -> & Uex & Oc & Nc & Zc & Lc).
  set (h2 := (h ++ ex) ++ [Heap (BArr [v])]). assert (Hi2 : invA al h2 e A) by (unfold h2; now apply inv_grow, inv_grow).
  destruct (at_place _ _ _ _ _ _ Hi2 Gx) as (a & sl & bb & v0 & A0 & Ar & Hp & Wp & Hc & Hs & Hl & Ho & Hcnt & Har & Hz & _ & Hr). pose proof (place_var _ _ _ Hp) as Hpl. injection Hpl as -> ->. rewrite Hl. cbn [bind].
  assert (Hn : forall y, cnt A0 y + cnt Ar y <= 1). { intros y. rewrite <- Hcnt. apply Hi2. }
  inversion Ho as [| | | |a0 vs ? A1 Hc0 Hvs|]; subst. cbn [v_hold deref]. rewrite (cell_live _ _ _ Hc0). cbn [bind].
  assert (Ha0 : a0 < length h). { apply (inv_lt _ _ _ _ a0 Hi). rewrite Hcnt, (cnt_cons a0), cnt_one. lia. }
  assert (Hz0 : 0 <> a0). { intros <-. rewrite (cnt_cons 0), cnt_one in Hz. lia. }
  set (h3 := set_block h2 a0 (BArr (vs ++ [mkV KUndef HGarbage]))).
  destruct (array_set h2 a0 vs l A1 Ar (vs ++ [mkV KUndef HGarbage]) (l ++ [TUndef]) (A1 ++ []) Hc0 Hvs Hn) as (H1 & H2 & H3).
  { apply owns_list_app; auto. apply (OL_cons _ _ _ [] _ _ []); constructor. } { intros y. rewrite app_nil_r. lia. }
  destruct (Hr _ _ _ H2 H1 H3) as (A' & Hi' & _). fold h3 in Hi'. set (e1 := eset e (x, []) (TArr (l ++ [TUndef]))) in *.
  destruct (grow_live h2 a0 (BArr vs) (BArr (vs ++ [mkV KUndef HGarbage])) Hc0) as [G1 G2]. { intros [m|k] w; cbn [slot]; [|discriminate]. intros E. rewrite nth_error_app1; auto. apply nth_error_Some. congruence. } { rewrite app_length. lia. }
  assert (Lq : load h3 (length (h ++ ex), At 0) = Ret v).
  { unfold load, live. cbn [fst snd]. unfold h3. rewrite set_block_other by (rewrite app_length; lia). unfold h2. rewrite nth_error_app2, Nat.sub_diag by lia. reflexivity. }
  assert (Oq : owns h3 v (tree_of c) Ac). { apply (frame h2); [apply Oc|]. intros y Hy. apply set_block_other. intros <-. apply cnt_in in Hy. rewrite Zc in Hy by auto. lia. }
  destruct (child_assign_from al h3 e1 A' (x, []) (At (length vs)) TUndef (TArr (l ++ [TUndef])) (tree_of c) (0, At x) (mkV KArr (HPtr a0)) a0 (length (h ++ ex), At 0) v Ac) as (h' & E & Hfin); auto.
  - eapply eget_same; eauto.
  - cbn [child]. rewrite (owns_list_length _ _ _ _ Hvs), nth_mid. reflexivity.
  - rewrite E. cbn [bind]. eexists. split; [reflexivity|]. cbn [set_child] in Hfin. rewrite (owns_list_length _ _ _ _ Hvs), set_nth_split in Hfin. unfold e1 in Hfin. rewrite (eset_twice _ _ _ _ _ Gx) in Hfin.
    eexists. split; [exact Hfin|]. split; [eapply view_set; eauto|]. cbn [s_mem].
    assert (U : in_use h' = in_use h3 + blocks (tree_of c)). { eapply assign_use; [exact Lq|exact Oq| | |exact E]; [now apply Zc|]. intros EE. injection EE as EE _. rewrite app_length in EE. lia. }
    unfold h3, h2 in U. rewrite in_use_set, !in_use_app, Uex, Hu in U. change (in_use [Heap (BArr [v])]) with 1 in U.
    pose proof (total_upd n f x (Some (TArr (l ++ [tree_of c]))) (view_lt _ _ _ _ _ Hv Ex)) as Tt. rewrite Ex in Tt. cbn [weight blocks] in Tt. rewrite map_app, list_sum_app in Tt. cbn [map list_sum fold_right] in Tt. lia.
Qed.

Definition rtree (r : retval) : tree := tree_of (ret_ctor r).
Lemma two_upd a r r' : forall x, upd (two a r) v_rets r' x = two a r' x.
Proof. intros x. unfold upd, two. destruct (Nat.eqb_spec x v_args) as [->|]; [reflexivity|]. destruct (Nat.eqb_spec x v_rets); reflexivity. Qed.
Definition emplace_cost (rs : list retval) : nat := list_sum (map (fun r => S (blocks (rtree r))) rs).
Lemma m_emplace_all n b a rs : forall s l L, mem n b s (two a (Some (TArr l))) L ->
  exists s', emplace_all s v_rets rs = Ret s' /\ mem n b s' (two a (Some (TArr (l ++ map rtree rs)))) (L + emplace_cost rs).
Proof.
  induction rs as [|r rs IH]; intros s l L Hm; cbn [emplace_all map].
  - exists s. split; [reflexivity|]. rewrite app_nil_r. unfold emplace_cost. cbn. now rewrite Nat.add_0_r.
  - destruct (m_emplace _ _ _ _ _ v_rets l (ret_ctor r) Hm eq_refl) as (s1 & E1 & Hm1). rewrite E1. cbn [bind]. apply (mem_ext _ _ _ _ _ _ (two_upd _ _ _)) in Hm1.
    destruct (IH _ _ _ Hm1) as (s2 & E2 & Hm2). exists s2. split; [exact E2|]. rewrite <- app_assoc in Hm2. cbn [app] in Hm2. fold (rtree r) in Hm2. replace (L + emplace_cost (r :: rs)) with (L + S (blocks (rtree r)) + emplace_cost rs); [exact Hm2|]. unfold emplace_cost. cbn [map list_sum fold_right]. unfold list_sum. lia.
Qed.

(** ** One EniBase *)
Definition none : vars := fun _ => None.
Lemma base_mem grows lay text n b st : 7 + 2 * length text <= n -> mem n b st none 0 ->
  ((forall a r, ~ gval (layout_lits lay) text a r) -> base_make grows lay text st = Exit 87) /\
  (forall a r, gval (layout_lits lay) text a r -> exists s L, base_make grows lay text st = Ret s /\ mem n b s (two (Some (denote a)) (Some (TArr []))) L /\ L = parser_loss grows a /\ (plain_text a -> L = 0)).
Proof.
  intros Hn Hm. unfold base_make. cbn [do_ops].
  destruct (m_new _ _ _ _ _ v_args CUndef Hm ltac:(unfold v_args; lia) eq_refl) as (s1 & E1 & Hm1). rewrite E1. cbn [bind].
  destruct (m_new _ _ _ _ _ v_rets CUndef Hm1 ltac:(unfold v_rets; lia) eq_refl) as (s2 & E2 & Hm2). rewrite E2. cbn [bind tree_of] in *.
  assert (Hm3 : mem n b s2 (two (Some TUndef) (Some TUndef)) 0).
  { eapply mem_ext; [|exact Hm2]. apply two_eq; [rewrite upd_other by (cbv; lia); apply upd_same|apply upd_same|]. intros x H1 H2. rewrite !upd_other by auto. reflexivity. }
  destruct (make_ok grows lay n b s2 _ _ text Hn Hm3) as (c & ok & st' & L' & Ep & HG & Hmax & Hcase). rewrite Ep. cbn [bind].
  destruct Hcase as [(-> & x & rest & Hg & -> & H1 & H2)|(-> & Hnog & Hroot)].
  - split; [intros Hc; now apply Hc in Hg|]. intros a r Ha. destruct (gval_det _ _ _ _ _ _ Ha Hg) as [-> _]. clear Ha.
    destruct HG as (Hk & f & Hmf & Hd). cbn [fst snd] in *.
    destruct (m_assign _ _ _ _ _ v_args v_root TUndef (denote x) Hmf ltac:(cbv; lia) (d_args _ _ _ _ _ _ Hd) (d_root _ _ _ _ _ _ Hd)) as (s3 & E3 & Hm4). rewrite E3. cbn [bind blocks] in *.
    apply (desc_args _ _ _ _ _ _ (Some (denote x))) in Hd.
    destruct (m_delegate grows _ _ _ _ _ v_rets Hm4 (d_rets _ _ _ _ _ _ Hd)) as (s4 & E4 & Hm5). rewrite E4. cbn [bind]. apply (desc_rets _ _ _ _ _ _ (Some (TArr []))) in Hd.
    assert (HG : G n b (with_mem c s4) (denote x, []) (Some (denote x)) (Some (TArr [])) (L' + 0)). { split; [exact Hk|]. eexists. split; [exact Hm5|exact Hd]. }
    destruct (drop_ok _ _ _ _ _ _ _ HG) as (s5 & g & Ed & Hm6 & F1 & F2 & F3). cbn [fst snd] in Hm6. apply (mem_ext _ _ _ _ _ _ (two_eq _ _ _ F1 F2 F3)) in Hm6.
    change (wastes (trees [])) with 0 in Hm6. destruct (own_plain x) as [O1 O2]. eexists s5, _. split; [exact Ed|]. split; [exact Hm6|]. split; [unfold parser_loss; rewrite made_own, kept_waste; lia|]. intros Hpl. rewrite (H2 Hpl). apply O1 in Hpl. lia.
  - split; [reflexivity|]. intros a r Ha. now apply Hnog in Ha.
Qed.
Lemma drop_mem n b s t u L : mem n b s (two (Some t) (Some u)) L -> exists s', base_drop s = Ret s' /\ mem n b s' none (L + waste u + waste t).
Proof.
  intros Hm. destruct (m_destroy _ _ _ _ _ v_rets u Hm eq_refl) as (s1 & E1 & Hm1). destruct (m_destroy _ _ _ _ _ v_args t Hm1 eq_refl) as (s2 & E2 & Hm2).
  exists s2. unfold base_drop. cbn [do_ops]. rewrite E1. cbn [bind]. rewrite E2. cbn [bind]. split; [reflexivity|]. eapply mem_ext; [|exact Hm2]. intros x. unfold upd, two, none. destruct (x =? v_args); [reflexivity|]. destruct (x =? v_rets); reflexivity.
Qed.

(** ** One call *)
(** what a call leaves behind beside the storage of its arguments *)
Definition run_cost (rs : list retval) : nat := list_sum (map ret_cost rs).
Lemma run_cost_split rs : emplace_cost rs + waste (TArr (map rtree rs)) = run_cost rs.
Proof. rewrite waste_arr, map_map. unfold emplace_cost, run_cost. induction rs as [|r rs IH]; [reflexivity|]. cbn [map list_sum fold_right] in *. assert (ret_cost r = S (2 * blocks (rtree r))) by (destruct r; reflexivity). unfold list_sum in *. lia. Qed.
Lemma value_of_rets rs : value_of (TArr (map rtree rs)) = JArr (map ret_value rs).
Proof. cbn [value_of]. rewrite map_map. f_equal. apply map_ext. intros []; reflexivity. Qed.
Lemma array_two n b s t l L x : mem n b s (two (Some t) (Some (TArr l))) L -> x = v_rets -> array_of s x = Ret l.
Proof. intros Hm ->. unfold array_of. now rewrite (mem_content _ _ _ _ _ v_rets _ Hm eq_refl). Qed.
Lemma check_two c n b s l r L : mem n b s (two (Some (TArr l)) r) L ->
  check c s (mkF c false false (h_init c)) = (let (o, ok) := h_parse c (h_init c) l in b <- ok ;; Ret (mkF c true b o, b)).
Proof. intros Hm. unfold check. cbn [f_parsed f_op]. unfold array_of. rewrite (mem_content _ _ _ _ _ v_args _ Hm eq_refl). reflexivity. Qed.

Lemma call_ok k n b st l r : 7 + 2 * length (cstr (k_buf k)) <= n -> mem n b st none 0 -> gval (readable (k_lay k)) (cstr (k_buf k)) (AArr l) r ->
  exists st' L, do_call k st = (a <- call_answer k l ;; Ret (st', a)) /\
    (forall a, call_answer k l = Ret a -> mem n b st' none L /\ L = call_loss k l /\ (L = 0 <-> plain_text (AArr l) /\ call_returned k l = [])).
Proof.
  intros Hn Hm Hg. destruct (base_mem (k_grows k) (k_lay k) _ n b st Hn Hm) as [_ HB]. destruct (HB _ _ Hg) as (s1 & L1 & E1 & Hm1 & HL & HP). clear HB. cbn [denote] in Hm1.
  destruct (own_plain (AArr l)) as [O1 O2]. assert (Hz : L1 + waste (denote (AArr l)) = 0 <-> plain_text (AArr l)). { unfold parser_loss in HL. rewrite made_own, kept_waste in HL. split; [intros; apply O1; lia|]. intros Hp. rewrite (HP Hp). apply O1 in Hp. lia. }
  assert (Hrc : forall rs, run_cost rs = 0 <-> rs = []). { intros [|[] rs]; split; auto; try discriminate; unfold run_cost; cbn [map list_sum fold_right ret_cost]; lia. }
  assert (HD : forall s2 rs L2, mem n b s2 (two (Some (TArr (map denote l))) (Some (TArr (map rtree rs)))) L2 -> L2 = L1 + emplace_cost rs ->
    exists s3 L3, base_drop s2 = Ret s3 /\ mem n b s3 none L3 /\ L3 = parser_loss (k_grows k) (AArr l) + kept (denote (AArr l)) + run_cost rs /\ (L3 = 0 <-> plain_text (AArr l) /\ rs = [])).
  { intros s2 rs L2 Hm2 ->. destruct (drop_mem _ _ _ _ _ _ Hm2) as (s3 & E3 & Hm3). eexists s3, _. split; [exact E3|]. split; [exact Hm3|]. pose proof (run_cost_split rs). change (TArr (map denote l)) with (denote (AArr l)). split; [rewrite kept_waste; lia|]. rewrite <- Hz, <- Hrc. lia. }
  destruct k as [g c buf lay grows]. unfold call_loss, do_call, call_answer, call_returned. cbn [k_gas k_class k_buf k_lay k_grows] in *. destruct g.
  - destruct (HD s1 [] L1 Hm1 (plus_n_O L1)) as (s3 & L3 & E3 & R). exists s3, L3. split; [|intros a _; exact R].
    unfold call_gas, gas_answer. rewrite E1. cbn [bind]. unfold get_gas. rewrite (check_two c _ _ _ _ _ _ Hm1). destruct (h_parse c (h_init c) (map denote l)) as [o [[]|e|u| |x]]; cbn [bind f_op]; try reflexivity.
    + destruct (h_gas c o); cbn [bind]; try reflexivity. rewrite E3. reflexivity.
    + rewrite E3. reflexivity.
  - unfold call_run, run_answer, returned. rewrite E1. cbn [bind]. unfold start. rewrite (check_two c _ _ _ _ _ _ Hm1). destruct (h_parse c (h_init c) (map denote l)) as [o ok].
    destruct ok as [[]|e|u| |x]; cbn [bind f_op]; try (exists s1, 0; split; [reflexivity|discriminate]).
    + rewrite (array_two _ _ _ _ _ _ _ Hm1 eq_refl). cbn [bind]. destruct (h_run c o) as [[o2 rs] r2]. cbn [fst snd]. destruct (m_emplace_all _ _ _ rs _ _ _ Hm1) as (s2 & E2 & Hm2). rewrite E2. cbn [bind app] in *.
      destruct (HD s2 rs _ Hm2 eq_refl) as (s3 & L3 & E3 & R). exists s3, L3. split; [|intros a _; exact R].
      destruct r2 as [[]|e|u| |x]; cbn [bind]; try reflexivity.
      * rewrite (mem_content _ _ _ _ _ v_rets _ Hm2 eq_refl). cbn [bind]. rewrite value_of_rets. destruct (print (JArr (map ret_value rs))); cbn [bind]; try reflexivity. rewrite E3. reflexivity.
      * rewrite E3. reflexivity.
    + destruct (HD s1 [] L1 Hm1 (plus_n_O L1)) as (s3 & L3 & E3 & R). exists s3, L3. rewrite E3. split; [reflexivity|intros a _; exact R].
Qed.
Lemma mem_rebase n b s L : mem n b s none L -> mem n (b + L) s none 0.
Proof. intros (e & H1 & H2 & H3). exists e. split; [exact H1|]. split; [exact H2|]. lia. Qed.

(** ** A program of calls *)
Lemma calls_ok n ks args : Forall2 takes ks args -> Forall (fun k => 7 + 2 * length (cstr (k_buf k)) <= n) ks -> forall b st, mem n b st none 0 ->
  exists st' L, do_calls ks st = (as_ <- answers ks args ;; Ret (st', as_)) /\ (forall as_, answers ks args = Ret as_ -> mem n b st' none L /\ L = calls_loss ks args /\ (L = 0 <-> Forall2 spares ks args)).
Proof.
  induction 1 as [|k l ks args (r & Hg) _ IH]; intros Hf b st Hm; cbn [do_calls answers calls_loss].
  - exists st, 0. split; [reflexivity|]. intros _ _. split; [exact Hm|]. split; [reflexivity|]. split; auto.
  - apply Forall_cons_iff in Hf as [Hn Hf]. destruct (call_ok k n b st l r Hn Hm Hg) as (s1 & L1 & E1 & R1). rewrite E1. destruct (call_answer k l) as [a|e|u| |x]; cbn [bind]; try (exists st, 0; split; [reflexivity|discriminate]).
    destruct (R1 a eq_refl) as (Hm1 & C1 & Z1). apply mem_rebase in Hm1. destruct (IH Hf _ _ Hm1) as (s2 & L2 & E2 & R2). rewrite E2. exists s2, (L1 + L2). destruct (answers ks args) as [as_|e|u| |x]; cbn [bind]; try (split; [reflexivity|discriminate]).
    split; [reflexivity|]. intros _ _. destruct (R2 as_ eq_refl) as ((e & M1 & M2 & M3) & C2 & Z2). split; [exists e; split; [exact M1|]; split; [exact M2|lia]|]. split; [unfold run_cost in *; lia|]. split.
    + intros Hz. constructor; [apply Z1; lia|apply Z2; lia].
    + intros HF. inversion HF as [|? ? ? ? Ha Hb]; subst. apply Z1 in Ha. apply Z2 in Hb. lia.
Qed.

Lemma lost_le ks : forall args, lost ks args <= calls_loss ks args.
Proof. induction ks as [|k ks IH]; intros [|l args]; cbn [lost calls_loss]; try lia. specialize (IH args). unfold call_loss. lia. Qed.
Theorem calls_memory n objs prog e log ks args : arun (env0 n) prog = Some (e, log) -> (forall x, is_alive (e_alive e) x = false) ->
  Forall2 takes ks args -> Forall (fun k => 7 + 2 * length (cstr (k_buf k)) <= n) ks ->
  exists st st', run (state0 n objs) prog = Ret (st, log) /\ do_calls ks st = (as_ <- answers ks args ;; Ret (st', as_)) /\
    (forall as_, answers ks args = Ret as_ ->
       (forall x, is_alive (s_alive st') x = false) /\ in_use (s_mem st') = in_use (s_mem st) + calls_loss ks args /\ (in_use (s_mem st') = in_use (s_mem st) <-> Forall2 spares ks args)).
Proof.
  intros Hr Hd Ht Hf. destruct (JsonHeapProof5.start n objs prog e log Hr) as (st & b & E & Hm).
  assert (Hm0 : mem n b st none 0). { eapply mem_ext; [|exact Hm]. intros x. unfold look. now rewrite Hd. }
  destruct (calls_ok n ks args Ht Hf b st Hm0) as (st' & L & E2 & R). exists st, st'. split; [exact E|]. split; [exact E2|]. intros as_ Ha. destruct (R as_ Ha) as (Hm2 & C & Z). split; [intros x; eapply mem_dead; [exact Hm2|reflexivity]|].
  pose proof (mem_use _ _ _ _ _ Hm0). pose proof (mem_use _ _ _ _ _ Hm2). split; [lia|]. rewrite <- Z. lia.
Qed.

(** ** Other texts *)
Theorem call_other n objs prog e log k : arun (env0 n) prog = Some (e, log) -> (forall x, is_alive (e_alive e) x = false) -> 7 + 2 * length (cstr (k_buf k)) <= n ->
  exists st, run (state0 n objs) prog = Ret (st, log) /\
    ((forall a r, ~ gval (readable (k_lay k)) (cstr (k_buf k)) a r) -> do_call k st = Exit 87) /\
    (forall a r, gval (readable (k_lay k)) (cstr (k_buf k)) a r -> (forall l, a <> AArr l) -> do_call k st = UB TypeConfusion).
Proof.
  intros Hr Hd Hn. destruct (JsonHeapProof5.start n objs prog e log Hr) as (st & b & E & Hm). exists st. split; [exact E|].
  assert (Hm0 : mem n b st none 0). { eapply mem_ext; [|exact Hm]. intros x. unfold look. now rewrite Hd. }
  destruct (base_mem (k_grows k) (k_lay k) _ n b st Hn Hm0) as [B1 B2]. unfold do_call. split.
  - intros Hno. destruct (k_gas k); unfold call_gas, call_run; rewrite (B1 Hno); reflexivity.
  - intros a r Hg Ha. destruct (B2 _ _ Hg) as (s & L & E1 & Hm1 & _).
    assert (HC : check (k_class k) s (mkF (k_class k) false false (h_init (k_class k))) = UB TypeConfusion).
    { unfold check. cbn [f_parsed]. unfold array_of. rewrite (mem_content _ _ _ _ _ v_args _ Hm1 eq_refl). destruct a; try reflexivity. now destruct (Ha l). }
    destruct (k_gas k); unfold call_gas, call_run; rewrite E1; cbn [bind]; [unfold get_gas|unfold start]; rewrite HC; reflexivity.
Qed.

(** ** The same answers as in EniModel.v *)
Lemma answers_same (c : hclass) p lay buf l r :
  (forall s vs, Forall2 denotes vs l -> p s vs = h_parse c s (map denote l)) ->
  (exists vs, Forall2 denotes vs l /\
     c_gas (as_op c p) lay buf = (let (s, ok) := p (h_init c) vs in b <- ok ;; if b then h_gas c s else Ret 1500%N) /\
     c_run (as_op c p) lay buf = (let (s, ok) := p (h_init c) vs in b <- ok ;;
         if b then let '(_, out, ok') := orun (as_op c p) s [] in b' <- ok' ;; if b' then t <- print (JArr out) ;; Ret (Some (cstr t)) else Ret None else Ret None)) ->
  gval (readable lay) (cstr buf) (AArr l) r ->
  gas_answer c l = (n <- c_gas (as_op c p) lay buf ;; Ret (Gas n)) /\
  run_answer c l = (t <- c_run (as_op c p) lay buf ;; Ret (match t with Some t => Text t | None => Nothing end)).
Proof.
  intros Hp (vs & Hd & -> & ->) _. rewrite (Hp _ vs Hd). unfold gas_answer, run_answer. destruct (h_parse c (h_init c) (map denote l)) as [s [[]|e|u| |x]]; cbn [bind]; try (split; reflexivity). split.
  - reflexivity.
  - cbn [orun as_op]. destruct (h_run c s) as [[s' out] [[]|e|u| |x]]; cbn [bind app]; try reflexivity. destruct (print (JArr (map ret_value out))); reflexivity.
Qed.

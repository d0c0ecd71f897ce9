(** The constructor of EniBase without memory: it is made, or what was made of it is destroyed. *)
From Verif Require Import Base JsonModel JsonSpec ValueSpec ValueModel ValueFaultModel JsonHeapSpec JsonHeapModel JsonOomSpec JsonOomModel ValueProof ValueProof2 ValueProof3 ValueProof4 ValueProof5 ValueProof6 ValueProof7 ValueProof8 ValueFaultProof2 JsonProof JsonProof2 JsonHeapProof2 JsonHeapProof3 JsonHeapProof4 JsonHeapProof5 JsonOomProof JsonOomProof2 JsonOomProof3 JsonOomProof4 JsonOomProof5 JsonOomProof6.
From Coq Require Import List NArith ZArith Bool Lia Arith.
Import ListNotations.

Lemma denote_set a : denote a <> TUndef.
Proof. destruct a; discriminate. Qed.
Lemma fold_kept (l : list ast) : fold_right (fun x p => types_kept x /\ p) True l <-> Forall types_kept l.
Proof. induction l as [|x l IH]; cbn [fold_right]; [split; constructor|]. rewrite Forall_cons_iff, IH. tauto. Qed.
Lemma fold_keptm (ms : list (bytes * ast)) : fold_right (fun m p => types_kept (snd m) /\ p) True ms <-> Forall (fun m => types_kept (snd m)) ms.
Proof. induction ms as [|m ms IH]; cbn [fold_right]; [split; constructor|]. rewrite Forall_cons_iff, IH. tauto. Qed.
Lemma gentle_events a : forall st, types_kept a -> mildp (denote a) st -> gentle (events a) st.
Proof.
  induction a as [z|b|s|l IH|ms IH] using ast_ind2; intros st Hk Hm; cbn [events gentle mild tfire]; auto; (split; [exact I|]).
  - cbn [types_kept] in Hk. apply fold_kept in Hk.
    assert (HE : forall l0, tplay (flat_map events l) (fst st, ([] : bytes, TArr l0) :: snd st) = Some (fst st, ([] : bytes, TArr (l0 ++ map denote l)) :: snd st) /\ gentle (flat_map events l) (fst st, ([] : bytes, TArr l0) :: snd st)).
    { clear Hm. revert Hk. induction IH as [|x l Hx _ IHl]; intros Hk l0; cbn [flat_map map]; [split; [now rewrite app_nil_r|exact I]|]. apply Forall_cons_iff in Hk as [Kx Kl]. destruct (IHl Kl (l0 ++ [denote x])) as [I1 I2].
      assert (E1 : tplay (events x) (fst st, ([] : bytes, TArr l0) :: snd st) = Some (fst st, ([] : bytes, TArr (l0 ++ [denote x])) :: snd st)) by apply play_events.
      rewrite tplay_app, E1, I1, <- app_assoc. split; [reflexivity|]. eapply gentle_app; [exact E1| |exact I2]. apply Hx; [exact Kx|]. split; [apply denote_set|exact I]. }
    destruct (HE []) as [E1 E2]. eapply gentle_app; [exact E1|exact E2|]. cbn [gentle mild snd fst app]. split; [destruct st; exact Hm|]. destruct (tfire EvEnd _); exact I.
  - match goal with |- context [flat_map ?F ms] => change (flat_map F ms) with (flat_map member_events ms) end. cbn [types_kept] in Hk. destruct Hk as [Hd Hk]. apply fold_keptm in Hk.
    assert (HE : forall k0 m0, (forall k v w, assoc k m0 = Some v -> In (k, w) ms -> kind_of v = kind_of (denote w)) ->
      exists k1, tplay (flat_map member_events ms) (fst st, (k0, TObj m0) :: snd st) = Some (fst st, (k1, TObj (enter_all (map dmem ms) m0)) :: snd st) /\ gentle (flat_map member_events ms) (fst st, (k0, TObj m0) :: snd st)).
    { clear Hm. revert Hd Hk. induction IH as [|[k x] ms Hx _ IHl]; intros Hd Hk k0 m0 H0; cbn [flat_map map enter_all dmem]; [exists k0; split; [reflexivity|exact I]|]. cbn [fst snd] in *. apply Forall_cons_iff in Hk as [Kx Kl]. cbn [snd] in Kx.
      destruct (IHl (fun j v w H1 H2 => Hd j v w (or_intror H1) (or_intror H2)) Kl k (assoc_set k (denote x) m0)) as (k1 & I1 & I2).
      { intros j v w Ej Hj. destruct (bytes_eqb_spec k j) as [->|Hn].
        - rewrite assoc_set_same in Ej. injection Ej as <-. apply (Hd j); [now left|now right].
        - rewrite assoc_set_other in Ej by auto. apply (H0 j); auto. now right. }
      exists k1. assert (E1 : tplay (member_events (k, x)) (fst st, (k0, TObj m0) :: snd st) = Some (fst st, (k, TObj (assoc_set k (denote x) m0)) :: snd st)). { unfold member_events. cbn [tplay tfire snd fst]. rewrite play_events. reflexivity. }
      rewrite tplay_app, E1, I1. split; [reflexivity|]. eapply gentle_app; [exact E1| |exact I2]. unfold member_events. cbn [gentle mild tfire snd fst]. split; [exact I|]. apply Hx; [exact Kx|]. split; [apply denote_set|]. cbn [snd]. intros v Ev. apply (H0 k); [exact Ev|now left]. }
    destruct (HE [] []) as (k1 & E1 & E2); [intros k v w H; discriminate|]. eapply gentle_app; [exact E1|exact E2|]. cbn [gentle mild snd fst app]. split; [destruct st; exact Hm|]. destruct (tfire EvEnd _); exact I.
Qed.

Section Base.
  Variable alloc : nat -> bool.
  Variable grows : nat -> bool.
  Variable lay : layout.
  Notation R := (layout_lits lay).
  Local Open Scope cmd_scope.
  Notation at_ := (at_ (A := unit)).

  Lemma bad_mem n b c f L : mem n b (h_mem c) f L -> cov c -> Bad c.
  Proof. intros (e & Hi & _) Hc. split; auto. exists (h_mem c), e. split; auto. eapply srel_refl; eauto. Qed.
  Lemma at_new n b c f L x : mem n b (h_mem c) f L -> x < n -> f x = None -> x < 7 -> cov c ->
    at_ c (f_do alloc (New x CUndef)) (fun _ c' => exists s', c' = with_mem c s' /\ step_op (h_mem c) (New x CUndef) = Ret s' /\ mem n b s' (upd f x (Some TUndef)) L /\ cov c').
  Proof.
    intros Hm Hn Hf Hx Hc. apply at_do.
    - intros s' E. exists s'. split; [reflexivity|]. split; [exact E|]. destruct (m_new _ _ _ _ _ x CUndef Hm Hn Hf) as (s1 & E1 & Hm1). rewrite E1 in E. injection E as ->. split; [exact Hm1|].
      intros y Hy. cbn [with_mem h_mem] in Hy. change (passed (with_mem c s')) with (passed c). destruct (Nat.eq_dec y x) as [->|Hne]; [now apply passed_low|]. cbn [step_op construct] in E1. rewrite (begin_alive _ _ _ _ _ E1) in Hy. apply alive_set in Hy as [[-> _]|Hy]; [now apply passed_low|exact (Hc y Hy)].
    - intros s' (ex & ->). destruct Hm as (e & Hi & _). split; [|now apply cov_same]. exists (h_mem c), e. split; auto. cbn [with_mem h_mem]. apply srel_app. eapply srel_refl; eauto.
  Qed.
  Lemma new_kept s e x s' : inv s e -> step_op s (New x CUndef) = Ret s' -> kept x s' /\ forall y, y <> x -> keep y (s_mem s) (s_mem s').
  Proof.
    intros Hi E. cbn [step_op construct bind] in E. split.
    - destruct (cell0 _ _ Hi) as (vs & E0). unfold begin_var in E. destruct (nth_error (s_alive s) x) as [[]|]; try discriminate. apply bind_ret in E as (h & Es & E). injection E as <-.
      assert (Hx : x < length vs). { unfold store, live in Es. cbn [fst snd] in Es. rewrite E0 in Es. cbn [bind slot] in Es. destruct (nth_error vs x) eqn:En; [|discriminate]. apply nth_error_Some. congruence. }
      rewrite (store0 _ _ _ _ E0 Hx) in Es. assert (Eh : h = set_nth 0 (Auto (BArr (set_nth x (mkV KUndef HNull) vs))) (s_mem s)) by congruence. subst h.
      unfold kept. cbn [s_mem]. erewrite load0; [|apply set_nth_same; apply nth_error_Some; congruence]. now rewrite set_nth_same.
    - intros y Hy. eapply keep_begin; eauto.
  Qed.
  Lemma bad_args n b c f L t (Hm : mem n b (h_mem c) f L) s' : kept v_args (h_mem c) -> cov c -> f v_root = Some t ->
    leaves (h_mem c) (Assign (v_args, []) (v_root, [])) s' -> Bad (with_mem c s').
  Proof.
    intros Hk Hc _ (Ha & q & v & h1 & ex & Eq & Ev & _ & Es & Em). destruct Hm as (e & Hi & _). split; [|now apply cov_same]. exists (h_mem c), e. split; auto. cbn [with_mem h_mem].
    destruct s' as [al h']. cbn [s_alive s_mem] in *. subst al h'. destruct (cell0 _ _ Hi) as (vs & E0). unfold kept in Hk. rewrite Hk in Ev. injection Ev as <-. cbn [v_hold] in Es.
    eapply srel_slot0; eauto. intros w Hw. rewrite (load0 _ _ _ E0), Hw in Hk. injection Hk as ->. right. split; [reflexivity|]. unfold inert. cbn. destruct (v_kind q); reflexivity.
  Qed.
  Lemma at_destroys l : forall c, at_ c (f_all alloc (map Destroy l)) (fun _ _ => True).
  Proof.
    induction l as [|x l IH]; intros c; cbn [map f_all]; [now apply at_ret|]. apply (at_bind _ _ _ (fun _ _ => True)); [apply at_do; auto; intros s' []|]. intros [] c' _. apply IH.
  Qed.

  Lemma sc_play es : sc (play (K_fault alloc grows) es) (play (K_heap grows) es).
  Proof.
    induction es as [|e es IH]; cbn [play]; [apply sc_ret|]. apply sc_bind; [|auto]. destruct e; cbn [fire]; [apply sc_bool|apply sc_num|apply sc_str|apply sc_str|apply sc_arr|apply sc_obj|apply sc_end].
  Qed.
  Lemma at_parse n b c text x rest L : 7 + 2 * length text <= n -> G n b c (TUndef, []) (Some TUndef) (Some TUndef) L -> J (TUndef = TUndef) (h_mem c) ->
    gval R text x rest -> types_kept x ->
    JsonOomProof5.at_ c (f_parse alloc grows lay text) (fun ok c' => ok = true /\ kept v_args (h_mem c') /\ exists L', G n b c' (denote x, []) (Some TUndef) (Some TUndef) L').
  Proof.
    intros Hn HG HJ Hg Hk.
    destruct (kparse_value_ok (K_fault alloc grows) lay (S (length text)) text ltac:(lia)) as [(x' & r & Hg' & Hp)|(Hno & _)]; [|now apply Hno in Hg]. destruct (gval_det _ _ _ _ _ _ Hg Hg') as [<- <-]. clear Hg'.
    pose proof (gval_nev _ _ _ _ Hg) as Hb.
    assert (HM : mildp (denote x) (TUndef, [])) by (split; [apply denote_set|reflexivity]).
    pose proof (at_play alloc grows n b (length text) (events x) c (TUndef, []) _ _ L _ Hn HG (play_events x _) ltac:(cbn [snd length]; lia) HJ (gentle_events x _ Hk HM)) as HA.
    destruct (play_ok grows n b (length text) (events x) c _ _ _ _ _ Hn HG (play_events x _)) as (ch & Lh & Eh & _); [cbn [snd length]; lia|].
    intros k. specialize (HA k). pose proof (sc_play (events x) (mkFS c k)) as HS. cbn [f_h] in HS. unfold f_parse, cbind at 1, kparse. rewrite Hp. unfold P, cbind at 1.
    destruct (play (K_fault alloc grows) (events x) (mkFS c k)) as [c' [[]|e|u| |q]]; cbn [cret f_h]; auto.
    - destruct HA as ((_ & Ha & _) & HL). auto.
    - destruct HS as [->|(c2 & HS)]; [exact HA|]. rewrite Eh in HS. discriminate.
  Qed.

  Lemma at_new3 n b st : 7 <= n -> mem n b st (fun _ => None) 0 ->
    at_ (mkH st [] false 0) (f_all alloc [New v_args CUndef; New v_rets CUndef; New v_root CUndef])
      (fun _ c' => exists L, G n b c' (TUndef, []) (Some TUndef) (Some TUndef) L /\ J (TUndef = TUndef) (h_mem c')).
  Proof.
    intros Hn Hm. set (c := mkH st [] false 0). cbn [f_all].
    assert (Hc : cov c). { intros y Hy. cbn [c h_mem] in Hy. rewrite (mem_dead _ _ _ _ _ y Hm eq_refl) in Hy. discriminate. }
    eapply at_bind; [apply (at_new n b c _ 0 v_args Hm); [unfold v_args; lia|reflexivity|cbv; lia|exact Hc]|]. intros [] c1 (s1 & -> & E1 & Hm1 & Hc1).
      eapply at_bind; [apply (at_new n b (with_mem c s1) _ 0 v_rets Hm1); [unfold v_rets; lia|reflexivity|cbv; lia|exact Hc1]|]. intros [] c2 (s2 & -> & E2 & Hm2 & Hc2).
      eapply at_bind; [apply (at_new n b (with_mem (with_mem c s1) s2) _ 0 v_root Hm2); [unfold v_root; lia|reflexivity|cbv; lia|exact Hc2]|]. intros [] c3 (s3 & -> & E3 & Hm3 & Hc3).
      apply at_ret. exists 0. cbn [with_mem h_mem h_keys h_side h_pushes c] in *. split.
      - split; [reflexivity|]. eexists. split; [exact Hm3|]. constructor; try reflexivity. intros i. destruct i; reflexivity.
      - destruct Hm as (e0 & Hi0 & _), Hm1 as (e1 & Hi1 & _), Hm2 as (e2 & Hi2 & _), Hm3 as (e3 & Hi3 & _).
        destruct (new_kept _ _ _ _ Hi0 E1) as [K1 _]. destruct (new_kept _ _ _ _ Hi1 E2) as [_ P2]. destruct (new_kept _ _ _ _ Hi2 E3) as [K3 P3].
        split; [eauto|]. split; [|intros _; exact K3]. apply (kept_keep _ _ _ _ Hi2 (P3 v_args ltac:(discriminate))). apply (kept_keep _ _ _ _ Hi1 (P2 v_args ltac:(discriminate))). exact K1.
  Qed.
  Lemma at_base n b st text x rest : 7 + 2 * length text <= n -> mem n b st (fun _ => None) 0 -> gval R text x rest -> types_kept x ->
    at_ (mkH st [] false 0) (f_base alloc grows lay text) (fun _ _ => True).
  Proof.
    intros Hn Hm Hg Hk. unfold f_base. eapply at_bind; [apply (at_new3 n b st); [lia|exact Hm]|].
    intros [] c1 (L & HG & HJ).
    eapply at_bind; [eapply at_parse; eauto|]. intros ok c2 (-> & Ha & L2 & HG2). pose proof (G_cov _ _ _ _ _ _ _ HG2) as Hc2. destruct HG2 as (Hk2 & f & Hm2 & Hd). cbn [fst snd] in *.
    apply (at_bind _ _ _ (fun _ c' => exists f L, mem n b (h_mem c') f L /\ cov c')).
    { apply at_do.
      - intros s' E. destruct (m_assign _ _ _ _ _ v_args v_root TUndef (denote x) Hm2 ltac:(cbv; lia) (d_args _ _ _ _ _ _ Hd) (d_root _ _ _ _ _ _ Hd)) as (s3 & E3 & Hm3). rewrite E3 in E. injection E as <-. do 2 eexists. split; [exact Hm3|].
        apply cov_same; [exact Hc2|]. cbn [step_op] in E3. apply bind_ret in E3 as (q & _ & E3). apply bind_ret in E3 as (l & _ & E3). apply bind_ret in E3 as (h1 & _ & E3). now injection E3 as <-.
      - intros s' Hl. eapply bad_args; [exact Hm2|exact Ha|exact Hc2|exact (d_root _ _ _ _ _ _ Hd)|exact Hl]. }
    intros [] c3 (f3 & L3 & Hm3 & Hc3).
    apply (at_bind _ _ _ (fun _ _ => True)).
    { unfold f_results. apply (at_bind _ _ _ (fun _ _ => True)); [apply at_ask; [eapply bad_mem; eauto|exact I]|]. intros [] c4 _. apply at_set; [|auto]. apply nt_bind; [apply nt_step|discriminate]. }
    intros [] c4 _. refine (at_eq _ _ (f_all alloc (map Destroy (v_root :: map (v_stack (h_side c4)) (indices (depth c4))))) _ _ (at_destroys _ _)). intros k. cbn [map f_h]. now rewrite map_map.
  Qed.

  Theorem fate text n objs prog e log c x rest : 7 + 2 * length text <= n -> arun (env0 n) prog = Some (e, log) -> (forall y, is_alive (e_alive e) y = false) ->
    gval R text x rest -> types_kept x ->
    exists st, run (state0 n objs) prog = Ret (st, log) /\
      ((exists st1 c', base_make_a alloc grows lay text st c = Ret (st1, c', true) /\ base_make grows lay text st = Ret st1) \/
       (exists st1 c', base_make_a alloc grows lay text st c = Ret (st1, c', false) /\ forall y, is_alive (s_alive st1) y = false) \/
       base_make_a alloc grows lay text st c = UB NullDeref).
  Proof.
    intros Hn Hr Hfr Hg Hk. destruct (base_ok grows lay text n objs prog e log Hn Hr Hfr) as (st & E & _ & Hok). destruct (Hok x rest Hg) as (st1 & st2 & Eb & _). clear Hok.
    exists st. split; [exact E|]. destruct (start n objs prog e log Hr) as (st' & b & E' & Hm). rewrite E in E'. injection E' as <-.
    assert (Hm0 : mem n b st (fun _ => None) 0). { eapply mem_ext; [|exact Hm]. intros y. unfold look. now rewrite Hfr. }
    pose proof (at_base n b st text x rest Hn Hm0 Hg Hk c) as HA. pose proof (base_near alloc grows lay text st c) as HN. unfold base_make_a. rewrite Eb in *.
    destruct (f_base alloc grows lay text _) as [c' [[]|ex|u| |q]]; cbn [near_base] in HN.
    - left. do 2 eexists. split; [reflexivity|]. exact HN.
    - destruct HN as [->|HN]; [|discriminate]. right. left. destruct HA as ((s & e1 & Hi & Hs) & Hc). destruct (unwind_ok (passed (f_h c')) s e1 _ Hi Hs) as (s1 & e2 & s1' & _ & -> & _ & Hal). cbn [bind]. do 2 eexists. split; [reflexivity|].
      intros y. destruct (is_alive (s_alive s1') y) eqn:Ey; [|reflexivity]. destruct (Hal y Ey) as [H1 H2]. elim H2. apply Hc, H1.
    - destruct HN as [->|HN]; [|discriminate]. auto.
    - discriminate.
    - discriminate.
  Qed.
End Base.
Section Crash.
  Variable alloc : nat -> bool.
  Variable grows : nat -> bool.
  Variable lay : layout.
  Hypothesis no : alloc 0 = false.
  Hypothesis yes : alloc 1 = true.

  Lemma do_undef c s' x : step_op (h_mem c) (New x CUndef) = Ret s' -> f_do alloc (New x CUndef) (mkFS c 0) = (mkFS (with_mem c s') 0, Ret tt).
  Proof. intros E. unfold f_do. cbn [f_h f_n step_a construct_a]. cbn [step_op construct] in E. cbn [bind begin_a]. rewrite E. reflexivity. Qed.
  Theorem object_crash text n objs prog e log ms rest : 7 + 2 * length text <= n -> arun (env0 n) prog = Some (e, log) -> (forall y, is_alive (e_alive e) y = false) ->
    gval (layout_lits lay) text (AObj ms) rest ->
    exists st, run (state0 n objs) prog = Ret (st, log) /\ base_make_a alloc grows lay text st 0 = UB NullDeref.
  Proof.
    intros Hn Hr Hfr Hg. destruct (start n objs prog e log Hr) as (st & b & E & Hm). exists st. split; [exact E|].
    assert (Hno : forall x, look e x = None) by (intros x; unfold look; now rewrite Hfr).
    destruct (m_new _ _ _ _ _ v_args CUndef Hm ltac:(unfold v_args; lia) (Hno _)) as (s1 & E1 & Hm1).
    destruct (m_new _ _ _ _ _ v_rets CUndef Hm1 ltac:(unfold v_rets; lia)) as (s2 & E2 & Hm2). { rewrite upd_other by (cbv; lia). apply Hno. }
    destruct (m_new _ _ _ _ _ v_root CUndef Hm2 ltac:(unfold v_root; lia)) as (s3 & E3 & Hm3). { rewrite !upd_other by (cbv; lia). apply Hno. }
    destruct (kparse_value_ok (K_fault alloc grows) lay (S (length text)) text ltac:(lia)) as [(x' & r & Hg' & Hp)|(Hx & _)]; [|now apply Hx in Hg]. destruct (gval_det _ _ _ _ _ _ Hg Hg') as [<- <-].
    unfold base_make_a, f_base. set (c := mkH st [] false 0). unfold cbind at 1. cbn [f_all]. unfold cbind at 1. rewrite (do_undef c s1 v_args E1). unfold cbind at 1. rewrite (do_undef (with_mem c s1) s2 v_rets E2). unfold cbind at 1. rewrite (do_undef (with_mem (with_mem c s1) s2) s3 v_root E3). cbn [cret].
    unfold f_parse. unfold cbind at 1. unfold cbind at 1. unfold kparse. rewrite Hp. cbn [events]. unfold P. cbn [play fire K_fault k_begin_object]. unfold cbind at 1. unfold cbind at 1. unfold f_begin. cbn zeta. unfold cbind at 1. cbn [f_all]. unfold cbind at 1. unfold f_do. cbn [f_h f_n step_a construct_a]. rewrite no, yes. reflexivity.
  Qed.
End Crash.

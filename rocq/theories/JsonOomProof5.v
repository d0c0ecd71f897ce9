(** The callbacks: an exception leaves what can be destroyed. *)
From Verif Require Import Base JsonModel JsonSpec ValueSpec ValueModel ValueFaultModel JsonHeapSpec JsonHeapModel JsonOomSpec JsonOomModel ValueProof ValueProof2 ValueProof3 ValueProof4 ValueProof5 ValueProof6 ValueProof7 ValueProof8 JsonHeapProof2 JsonHeapProof3 JsonHeapProof4 JsonHeapProof5 JsonOomProof JsonOomProof2 JsonOomProof3 JsonOomProof4.
From Coq Require Import List NArith ZArith Bool Lia Arith.
Import ListNotations.

(** what arrives at a parent replaces nothing of another type *)
Definition mildp (u : tree) (st : tstate) : Prop :=
  u <> TUndef /\
  match snd st with
  | [] => fst st = TUndef
  | (k, TObj ms) :: _ => forall v, assoc k ms = Some v -> kind_of v = kind_of u
  | _ => True
  end.

(** the model with memory never throws std::bad_alloc *)
Definition nt {A} (o : outcome A) : Prop := o <> Throw StdBadAlloc.
Lemma nt_bind {A B} (o : outcome A) (k : A -> outcome B) : nt o -> (forall a, nt (k a)) -> nt (bind o k).
Proof. unfold nt. destruct o; cbn; auto; congruence. Qed.
Lemma nt_live h a : nt (live h a).
Proof. unfold nt, live. destruct (nth_error h a) as [[]|]; discriminate. Qed.
Ltac nt1 := repeat first
  [ discriminate | assumption | apply nt_live
  | match goal with |- nt (bind _ _) => apply nt_bind; [|intros] end
  | match goal with |- nt (match ?x with _ => _ end) => destruct x end
  | match goal with |- nt (let '(_, _) := ?x in _) => destruct x end ].
Lemma nt_deref h p : nt (deref h p).
Proof. unfold deref. nt1. Qed.
Lemma nt_load h l : nt (load h l).
Proof. unfold load. nt1. Qed.
Lemma nt_store h l v : nt (store h l v).
Proof. unfold store. nt1. Qed.
Ltac nt2 := repeat first [ apply nt_deref | apply nt_load | apply nt_store | progress nt1 ].
Lemma nt_locate p : forall h l, nt (locate h l p).
Proof. induction p as [|s p IH]; intros h l; cbn [locate]; [discriminate|]. unfold enter. nt2. apply IH. Qed.
Lemma nt_find s p : nt (find_place s p).
Proof. unfold find_place. destruct (is_alive _ _); [apply nt_locate|discriminate]. Qed.
Lemma nt_copy f : forall h v, nt (copy f h v).
Proof.
  induction f as [|f IH]; intros h v; cbn [copy]; [discriminate|]. assert (HL : forall vs h, nt (copy_list (copy f) h vs)). { induction vs as [|w vs IHv]; intros h0; cbn [copy_list]; [discriminate|]. apply nt_bind; [apply IH|]. intros [h1 o]. apply nt_bind; [apply IHv|]. intros [h2 vs2]. discriminate. }
  destruct (v_kind v); nt2; apply HL.
Qed.
Lemma nt_release h a : nt (release h a).
Proof. unfold release. nt1. Qed.
Lemma nt_destroy f : forall h v, nt (destroy f h v).
Proof.
  induction f as [|f IH]; intros h v; cbn [destroy]; [discriminate|]. assert (HL : forall vs h, nt (destroy_list (destroy f) h vs)). { induction vs as [|w vs IHv]; intros h0; cbn [destroy_list]; [discriminate|]. apply nt_bind; [apply IH|]. intros h1. apply IHv. }
  destruct (v_kind v); destruct (v_hold v); nt2; try apply nt_release; apply HL.
Qed.
Lemma nt_begin al h x v : nt (begin_var al h x v).
Proof. unfold begin_var. nt2. Qed.
Lemma nt_cc h v : nt (copy_construct h v).
Proof. unfold copy_construct. apply nt_bind; [apply nt_copy|]. intros [h' o]. discriminate. Qed.
Lemma nt_assign h l l' : nt (assign h l l').
Proof. unfold assign. nt2. apply nt_copy. Qed.
Lemma nt_step s o : nt (step_op s o).
Proof.
  destruct o; cbn [step_op]; repeat first [ apply nt_find | apply nt_begin | apply nt_cc | apply nt_assign | apply nt_destroy | progress nt2 ].
Qed.

Section At.
  Variable alloc : nat -> bool.
  Local Open Scope cmd_scope.

  Definition at_ {A} (c : hstate) (m : cmd fstate A) (Q : A -> hstate -> Prop) : Prop :=
    forall n, match m (mkFS c n) with
              | (c', Ret a) => Q a (f_h c')
              | (c', Throw StdBadAlloc) => Bad (f_h c')
              | _ => True
              end.
  Lemma at_bind {A B} c (m : cmd fstate A) (k : A -> cmd fstate B) R Q : at_ c m R -> (forall a c', R a c' -> at_ c' (k a) Q) -> at_ c (cbind m k) Q.
  Proof.
    intros H1 H2 n. specialize (H1 n). unfold cbind. destruct (m (mkFS c n)) as [[c' n'] [a|e|u| |x]]; auto. exact (H2 a c' H1 n').
  Qed.
  Lemma at_weak {A} c (m : cmd fstate A) (Q Q' : A -> hstate -> Prop) : at_ c m Q -> (forall a c', Q a c' -> Q' a c') -> at_ c m Q'.
  Proof. intros H HQ n. specialize (H n). destruct (m (mkFS c n)) as [c' [a|e|u| |x]]; auto. Qed.
  Lemma at_eq {A} c (m m' : cmd fstate A) Q : (forall n, m (mkFS c n) = m' (mkFS c n)) -> at_ c m' Q -> at_ c m Q.
  Proof. intros E H n. rewrite E. apply H. Qed.
  Lemma at_ret {A} c (a : A) (Q : A -> hstate -> Prop) : Q a c -> at_ c (cret a) Q.
  Proof. intros H n. exact H. Qed.
  Lemma at_lift {A} c (o : outcome A) (Q : A -> hstate -> Prop) : nt o -> (forall a, o = Ret a -> Q a c) -> at_ c (lift o) Q.
  Proof. intros H1 H2 n. unfold lift. destruct o; cbn [f_h]; auto. destruct e; auto. now elim H1. Qed.
  Lemma at_ask c (Q : unit -> hstate -> Prop) : Bad c -> Q tt c -> at_ c (f_ask alloc) Q.
  Proof. intros H1 H2 n. unfold f_ask. cbn [f_n f_h]. destruct (alloc n); auto. Qed.
  Lemma at_set c f (Q : unit -> hstate -> Prop) : nt (f c) -> (forall c', f c = Ret c' -> Q tt c') -> at_ c (f_set f) Q.
  Proof. intros H1 H2 n. unfold f_set. cbn [f_n f_h]. destruct (f c); cbn [f_h]; auto. destruct e; auto. now elim H1. Qed.
  Lemma at_do c o (Q : unit -> hstate -> Prop) : (forall s', step_op (h_mem c) o = Ret s' -> Q tt (with_mem c s')) -> (forall s', leaves (h_mem c) o s' -> Bad (with_mem c s')) -> at_ c (f_do alloc o) Q.
  Proof.
    intros H1 H2 n. unfold f_do. cbn [f_h f_n]. pose proof (step_near alloc (h_mem c) n o) as Hn. destruct (step_a alloc _ _ _) as [[[s n'] []]|e|u| |x]; cbn [nears] in Hn; cbn [f_h]; auto.
    destruct e; auto. exfalso. exact (nt_step _ _ Hn).
  Qed.
  (** [Q] for the states that follow: what the operations with memory give *)
  Lemma at_basic rt c o : J rt (h_mem c) -> cov c -> basic o -> (forall x, made o = Some x -> In x (passed c)) ->
    at_ c (f_do alloc o) (fun _ c' => exists s', step_op (h_mem c) o = Ret s' /\ c' = with_mem c s' /\ J rt s' /\ cov c').
  Proof.
    intros HJ Hc Hb Hm. apply at_do.
    - intros s' E. exists s'. split; [exact E|]. split; [reflexivity|]. split; [eapply J_basic; eauto|eapply cov_basic; eauto].
    - intros s' Hl. destruct o as [x k|x [y p]|x [y p]|p q|x|p z|p t|p q|x p|p n|p|p k q|p k|p a]; cbn [leaves] in Hl; try contradiction; eapply bad_longer; eauto.
  Qed.
  Definition quiet (o : op) : Prop := match o with Move _ _ | Destroy _ => basic o | _ => False end.
  Lemma at_quiet rt c o : J rt (h_mem c) -> quiet o ->
    at_ c (f_do alloc o) (fun _ c' => exists s', step_op (h_mem c) o = Ret s' /\ c' = with_mem c s' /\ J rt s').
  Proof.
    intros HJ Hq. assert (Hb : basic o) by (destruct o; try contradiction; exact Hq). apply at_do.
    - intros s' E. exists s'. split; [exact E|]. split; [reflexivity|]. eapply J_basic; eauto.
    - intros s' Hl. destruct o; contradiction.
  Qed.
  Lemma at_quiets rt l : forall c, J rt (h_mem c) -> Forall quiet l -> at_ c (f_all alloc l) (fun _ c' => exists s', do_ops (h_mem c) l = Ret s' /\ c' = with_mem c s' /\ J rt s').
  Proof.
    induction l as [|o l IH]; intros c HJ Hl; cbn [f_all do_ops].
    - apply at_ret. exists (h_mem c). split; auto. split; auto. destruct c; reflexivity.
    - inversion Hl; subst. eapply at_bind; [eapply at_quiet; eauto|]. intros [] c' (s' & E & -> & HJ'). eapply at_weak; [apply IH; eauto|]. intros [] c2 (s2 & E2 & -> & HJ2). exists s2. rewrite E. split; [exact E2|]. split; [reflexivity|auto].
  Qed.
  Lemma at_basics rt l : forall c, J rt (h_mem c) -> cov c -> Forall (fun o => basic o /\ (forall x, made o = Some x -> In x (passed c))) l ->
    at_ c (f_all alloc l) (fun _ c' => exists s', do_ops (h_mem c) l = Ret s' /\ c' = with_mem c s' /\ J rt s' /\ cov c').
  Proof.
    induction l as [|o l IH]; intros c HJ Hc Hl; cbn [f_all do_ops].
    - apply at_ret. exists (h_mem c). split; auto. split; [destruct c; reflexivity|]. split; auto.
    - inversion Hl as [|? ? [Hb Hm] Hl']; subst. eapply at_bind; [eapply at_basic; eauto|]. intros [] c' (s' & E & -> & HJ' & Hc'). eapply at_weak; [apply IH; eauto|]. intros [] c2 (s2 & E2 & -> & HJ2 & Hc2). exists s2. rewrite E. split; [exact E2|]. split; [reflexivity|auto].
  Qed.

  (** ** set_parent *)
  Lemma assoc_kinds vs ms mt : forall k w, Forall2 (fun v t => v_kind v = kind_of t) vs mt -> forall ks, length ks = length vs -> vs = map snd ms -> ks = map fst ms -> assoc k ms = Some w -> exists t, assoc k (combine ks mt) = Some t /\ v_kind w = kind_of t.
  Proof.
    intros k w H. revert ms. induction H as [|v t vs mt Hv Hl IH]; intros ms ks Hlen Hvs Hks Ha; destruct ms as [|[j u] ms]; cbn [map] in *; try discriminate. subst ks. cbn [combine assoc fst snd] in *. injection Hvs as -> ->. destruct (bytes_eqb j k); [injection Ha as <-; eauto|]. eapply IH; eauto.
  Qed.
  Lemma owns_list_kinds h vs ts A : owns_list h vs ts A -> Forall2 (fun v t => v_kind v = kind_of t) vs ts.
  Proof. induction 1 as [|v t A vs ts B Ho Hl IH]; constructor; auto. eapply owns_kind; eauto. Qed.
  Lemma assoc_set_vals k v' : forall ms w, assoc k ms = Some w -> vrel w v' -> Forall2 vrel (map snd ms) (map snd (assoc_set k v' ms)).
  Proof.
    induction ms as [|[j u] ms IH]; intros w Ha Hw; cbn [assoc assoc_set] in *; [discriminate|]. destruct (bytes_eqb j k); cbn [map snd]; [injection Ha as ->; constructor; auto using vrels_refl|]. constructor; auto using vrel_refl. eapply IH; eauto.
  Qed.
  Lemma assoc_set_fresh k v' w : forall ms : list (bytes * val), assoc k ms = None -> map snd (assoc_set k v' (ms ++ [(k, w)])) = map snd ms ++ [v'].
  Proof.
    induction ms as [|[j u] ms IH]; cbn [assoc assoc_set app map]; intros H; [assert (bytes_eqb k k = true) as -> by (destruct (bytes_eqb_spec k k); congruence); reflexivity|]. destruct (bytes_eqb j k); [discriminate|]. cbn [map snd app]. now rewrite IH.
  Qed.
  Lemma assoc_app_fresh k (w : val) : forall ms, assoc k ms = None -> assoc k (ms ++ [(k, w)]) = Some w.
  Proof.
    induction ms as [|[j u] ms IH]; cbn [assoc app]; intros H; [assert (bytes_eqb k k = true) as -> by (destruct (bytes_eqb_spec k k); congruence); reflexivity|]. destruct (bytes_eqb j k); [discriminate|]. auto.
  Qed.
  Lemma mem_two n b s f L x y t u : mem n b s f L -> x <> y -> f x = Some t -> f y = Some u ->
    exists vx Ax vy, load (s_mem s) (0, At x) = Ret vx /\ load (s_mem s) (0, At y) = Ret vy /\ owns (s_mem s) vx t Ax /\ cnt Ax 0 = 0 /\ v_kind vy = kind_of u.
  Proof.
    intros (e & (A & Hi) & Hv & _) Hn Ex Ey. destruct (view_get _ _ _ _ _ Hv Ex) as [_ Gx]. destruct (view_get _ _ _ _ _ Hv Ey) as [_ Gy].
    destruct (two_vars _ _ _ _ _ _ _ _ Hi Hn Gx Gy) as (vx & Ax & vy & Ay & H1 & H2 & H3 & H4 & H5 & _). exists vx, Ax, vy. repeat (split; auto). eapply owns_kind; eauto.
  Qed.
  Lemma heap_cell h a bl : cell_at h a bl -> a <> 0 -> nth_error h a = Some (Heap bl).
  Proof. unfold cell_at. destruct (Nat.eqb_spec a 0); [contradiction|auto]. Qed.
  Lemma live_set h a b0 bl : nth_error h a = Some (Heap b0) -> live (set_block h a bl) a = Ret bl.
  Proof. intros E. unfold live, set_block. rewrite E. rewrite set_nth_same by (apply nth_error_Some; congruence). reflexivity. Qed.
  Lemma set_twice h a b0 bl bl' : nth_error h a = Some (Heap b0) -> set_block (set_block h a bl) a bl' = set_block h a bl'.
  Proof.
    intros E. unfold set_block. rewrite E. rewrite set_nth_same by (apply nth_error_Some; congruence). clear E. revert a. induction h as [|x h IH]; intros [|a]; cbn [set_nth]; auto. f_equal. apply IH.
  Qed.

  Lemma bad_assign rt n b c f L root u (Hm : mem n b (h_mem c) f L) (Hp : f v_param = Some u) (Hr : f v_root = Some root) s' :
    J rt (h_mem c) -> cov c -> rt -> leaves (h_mem c) (Assign (v_root, []) (v_param, [])) s' -> Bad (with_mem c s').
  Proof.
    intros ((e & Hi) & _ & Hk) Hc Hrt (Ha & q & v & h1 & ex & Eq & Ev & _ & Es & Em). split; [|now apply cov_same]. exists (h_mem c), e. split; auto. cbn [with_mem h_mem].
    destruct s' as [al h']. cbn [s_alive s_mem] in *. subst al h'. destruct (cell0 _ _ Hi) as (vs & E0). specialize (Hk Hrt). unfold kept in Hk. rewrite Hk in Ev. injection Ev as <-. cbn [v_hold] in Es.
    eapply srel_slot0; eauto. intros w Hw. rewrite (load0 _ _ _ E0), Hw in Hk. injection Hk as ->. right. split; [reflexivity|]. unfold inert. cbn. destruct (v_kind q); reflexivity.
  Qed.
  Lemma bad_put rt n b c f L x k mt u (Hm : mem n b (h_mem c) f L) (Hne : x <> v_param) (Hp : f v_param = Some u) (Hx : f x = Some (TObj mt)) s' :
    J rt (h_mem c) -> cov c -> (forall v, assoc k mt = Some v -> kind_of v = kind_of u) -> leaves (h_mem c) (Put (x, []) k (v_param, [])) s' -> Bad (with_mem c s').
  Proof.
    intros ((e & Hi) & _) Hc Hmild (v & a & ms & Ev & Ed & Ha & q & v1 & h1 & ex & Eq & Ev1 & _ & Es & Em). split; [|now apply cov_same]. exists (h_mem c), e. split; auto. cbn [with_mem h_mem].
    destruct s' as [al h']. cbn [s_alive s_mem] in *. subst al h'. destruct (h_mem c) as [al h]. cbn [s_alive s_mem] in *.
    destruct (mem_two _ _ _ _ _ _ _ _ _ Hm Hne Hx Hp) as (vx & Ax & vy & Lx & Ly & Ox & Zx & Ky). cbn [s_mem] in *. rewrite Lx in Ev. injection Ev as <-.
    inversion Ox as [| | | | |a0 ms0 ? A1 Hc0 Hf Hnd Hms]; subst. cbn [v_hold deref] in Ed. rewrite (cell_live _ _ _ Hc0) in Ed. cbn [bind] in Ed. injection Ed as -> ->.
    assert (Hz : a <> 0). { intros ->. rewrite (cnt_cons 0), cnt_one in Zx. lia. } pose proof (heap_cell _ _ _ Hc0 Hz) as Ea.
    set (ms' := match assoc k ms with Some _ => ms | None => ms ++ [(k, mkV KUndef HNull)] end) in *.
    rewrite load_other in Eq by exact Hz. rewrite Ly in Eq. injection Eq as <-.
    assert (Ek : exists w, assoc k ms' = Some w /\ w = v1). { unfold load in Ev1. cbn [fst snd] in Ev1. rewrite (live_set _ _ _ _ Ea) in Ev1. cbn [bind slot] in Ev1. destruct (assoc k ms') as [w|]; [|discriminate]. exists w. split; congruence. }
    destruct Ek as (w & Ek & ->). unfold store in Es. cbn [fst snd] in Es. rewrite (live_set _ _ _ _ Ea) in Es. cbn [bind slot set_slot] in Es. rewrite Ek in Es. injection Es as <-. rewrite (set_twice _ _ _ _ _ Ea).
    refine (srel_cell (mkS al h) e a (BObj ms) (BObj (assoc_set k (mkV (v_kind vy) (v_hold v1)) ms')) _ ex Hi Ea Hz _ eq_refl).
    cbn [brel]. destruct (assoc k ms) as [w0|] eqn:E0; subst ms'; cbn iota in *.
    - rewrite E0 in Ek. injection Ek as ->. exists (map snd (assoc_set k (mkV (v_kind vy) (v_hold v1)) ms)), []. rewrite app_nil_r. split; [reflexivity|]. split; [|constructor]. eapply assoc_set_vals; [exact E0|].
      left. assert (v_kind v1 = v_kind vy) as <-; [|destruct v1; reflexivity].
      destruct (assoc_kinds (map snd ms) ms (map snd mt) k v1 (owns_list_kinds _ _ _ _ Hms) (map fst ms)) as (t & Et & Kt); auto; [now rewrite !map_length|]. rewrite Hf in Et.
      assert (Ec : forall l : list (bytes * tree), combine (map fst l) (map snd l) = l) by (induction l as [|[? ?] l IHl]; cbn; congruence). rewrite Ec in Et. rewrite Kt, Ky. auto.
    - rewrite (assoc_app_fresh _ _ _ E0) in Ek. injection Ek as <-. exists (map snd ms), [mkV (v_kind vy) HNull]. rewrite assoc_set_fresh by exact E0. split; [reflexivity|]. split; [apply vrels_refl|]. constructor; [|constructor]. unfold inert. cbn. destruct (v_kind vy); reflexivity.
  Qed.
  Lemma bad_push rt n b c f L x l u (Hm : mem n b (h_mem c) f L) (Hne : x <> v_param) (Hp : f v_param = Some u) (Hx : f x = Some (TArr l)) s' :
    J rt (h_mem c) -> cov c -> leaves (h_mem c) (Push (x, []) (v_param, [])) s' -> Bad (with_mem c s').
  Proof.
    intros HJ Hc [->|(v & a & vs & Ev & Ed & Ha & q & v1 & h1 & ex & Eq & Ev1 & _ & Es & Em)]. { apply (bad_here rt); auto. }
    destruct HJ as ((e & Hi) & _). split; [|now apply cov_same]. exists (h_mem c), e. split; auto. cbn [with_mem h_mem].
    destruct s' as [al h']. cbn [s_alive s_mem] in *. subst al h'. destruct (h_mem c) as [al h]. cbn [s_alive s_mem] in *.
    destruct (mem_two _ _ _ _ _ _ _ _ _ Hm Hne Hx Hp) as (vx & Ax & vy & Lx & Ly & Ox & Zx & Ky). cbn [s_mem] in *. rewrite Lx in Ev. injection Ev as <-.
    inversion Ox as [| | | |a0 vs0 ? A1 Hc0 Hvs|]; subst. cbn [v_hold deref] in Ed. rewrite (cell_live _ _ _ Hc0) in Ed. cbn [bind] in Ed. injection Ed as -> ->.
    assert (Hz : a <> 0). { intros ->. rewrite (cnt_cons 0), cnt_one in Zx. lia. } pose proof (heap_cell _ _ _ Hc0 Hz) as Ea.
    unfold store in Es. cbn [fst snd] in Es. rewrite (live_set _ _ _ _ Ea) in Es. cbn [bind slot set_slot] in Es. destruct (nth_error (vs ++ _) (length vs)); [|discriminate]. injection Es as <-. rewrite (set_twice _ _ _ _ _ Ea).
    refine (srel_cell (mkS al h) e a (BArr vs) _ _ ex Hi Ea Hz _ eq_refl). exact I.
  Qed.

  Lemma at_parent n b c f L u root stk : mem n b (h_mem c) f L -> h_keys c = map fst stk -> f v_param = Some u -> f v_root = Some root ->
    (forall i, f (v_stack (h_side c) i) = nth_error (trees stk) i) -> mildp u (root, stk) -> J (root = TUndef) (h_mem c) -> cov c ->
    at_ c (f_set_parent alloc) (fun _ c' => h_keys c' = h_keys c /\ h_side c' = h_side c /\ J (fst (tparent u (root, stk)) = TUndef) (h_mem c') /\ cov c').
  Proof.
    intros Hm Hk Hp Hr Hs [Hu Hmild] HJ Hc. unfold f_set_parent.
    apply (at_bind c _ _ (fun _ c' => h_keys c' = h_keys c /\ h_side c' = h_side c /\ J (fst (tparent u (root, stk)) = TUndef) (h_mem c') /\ cov c')).
    2: { intros [] c' (K1 & K2 & HJ' & Hc'). eapply at_weak; [eapply at_basic; eauto|].
         - cbn. split; cbv; lia.
         - intros x H. discriminate.
         - intros [] c2 (s2 & _ & -> & HJ2 & Hc2). cbn [with_mem h_keys h_side h_mem]. auto. }
    destruct stk as [|[k t] stk]; cbn [map fst snd] in *.
    - eapply at_eq; [intros n0; cbn [f_h]; rewrite Hk; reflexivity|]. apply at_do.
      + intros s' E. destruct (m_assign _ _ _ _ _ v_root v_param _ _ Hm ltac:(discriminate) Hr Hp) as (s1 & E1 & Hm1). rewrite E1 in E. injection E as <-. cbn [with_mem h_keys h_side h_mem tparent snd fst]. split; auto. split; auto.
        assert (Hal : s_alive s1 = s_alive (h_mem c)). { cbn [step_op] in E1. apply bind_ret in E1 as (q & _ & E1). apply bind_ret in E1 as (l & _ & E1). apply bind_ret in E1 as (h1 & _ & E1). now injection E1 as <-. }
        split; [|now apply cov_same]. eapply J_mem; [exact HJ|exact Hm1| |intros H; now elim Hu].
        cbn [step_op] in E1. apply bind_ret in E1 as (q & _ & E1). apply bind_ret in E1 as (l & El & E1). apply bind_ret in E1 as (h1 & E2 & E1). injection E1 as <-. apply place_var in El as ->. eapply keep_assign; eauto. discriminate.
      + intros s' Hl. eapply bad_assign; [exact Hm|exact Hp|exact Hr|exact HJ|exact Hc|exact Hmild|exact Hl].
    - refine (at_eq _ _ (_ <- f_ask alloc ;; par <- lift (load (s_mem (h_mem c)) (0, At (top c))) ;;
                 match v_kind par with
                 | KObj => f_do alloc (Put (top c, []) k (v_param, []))
                 | KArr => f_do alloc (Push (top c, []) (v_param, []))
                 | _ => cret tt
                 end) _ _ _); [intros n0; cbn [f_h]; rewrite Hk; reflexivity|].
      assert (Et : top c = v_stack (h_side c) (length (trees stk))). { unfold top, depth. rewrite Hk. cbn [length]. now rewrite trees_length, map_length. }
      assert (Ht : f (top c) = Some t). { rewrite Et, Hs, trees_cons. apply nth_mid. }
      assert (Hne : top c <> v_param). { rewrite Et. pose proof (stack_ge (h_side c) (length (trees stk))). unfold v_param. lia. }
      cbn [tparent snd fst].
      apply (at_bind c _ _ (fun _ c' => c' = c)); [apply at_ask; auto; eapply bad_here; eauto|]. intros [] c' ->.
      apply (at_bind c _ _ (fun par c' => c' = c /\ load (s_mem (h_mem c)) (0, At (top c)) = Ret par)); [apply at_lift; [apply nt_load|auto]|]. intros par c' [-> El].
      destruct (mem_kind _ _ _ _ _ _ _ Hm Ht) as (v & El2 & Ek). rewrite El in El2. injection El2 as <-. rewrite Ek.
      assert (Hskip : at_ c (cret tt) (fun _ c' => h_keys c' = h_keys c /\ h_side c' = h_side c /\ J (root = TUndef) (h_mem c') /\ cov c')) by (apply at_ret; auto).
      destruct t as [| | | |l|ms]; cbn [kind_of]; try exact Hskip; clear Hskip.
      + apply at_do.
        * intros s' E. destruct (m_push _ _ _ _ _ (top c) v_param _ _ Hm Hne Ht Hp) as (s1 & E1 & Hm1). rewrite E1 in E. injection E as <-. cbn [with_mem h_keys h_side h_mem]. split; auto. split; auto.
          destruct (mem_two _ _ _ _ _ _ _ _ _ Hm Hne Ht Hp) as (vx & Ax & vy & Lx & Ly & Ox & Zx & Ky). inversion Ox as [| | | |a0 vs0 ? A1 Hc0 Hvs|]; subst.
          assert (Hz : a0 <> 0). { intros ->. rewrite (cnt_cons 0), cnt_one in Zx. lia. }
          cbn [step_op] in E1. apply bind_ret in E1 as (q & Eq & E1). apply bind_ret in E1 as (l0 & El0 & E1). apply place_var in El0 as ->. rewrite Lx in E1. cbn [bind v_hold deref] in E1. rewrite (cell_live _ _ _ Hc0) in E1. cbn [bind] in E1. destruct (fst q =? a0); [discriminate|]. apply bind_ret in E1 as (h1 & E2 & E1). injection E1 as <-.
          assert (HK : forall y, keep y (s_mem (h_mem c)) h1). { intros y. eapply keep_trans; [apply keep_set, Hz|eapply keep_assign; eauto; congruence]. }
          split; [|now apply cov_same]. eapply J_mem; [exact HJ|exact Hm1|apply HK|auto].
        * intros s' Hl. eapply bad_push; [exact Hm|exact Hne|exact Hp|exact Ht|exact HJ|exact Hc|exact Hl].
      + apply at_do.
        * intros s' E. destruct (m_put _ _ _ _ _ (top c) v_param k _ _ Hm Hne Ht Hp) as (s1 & E1 & Hm1). rewrite E1 in E. injection E as <-. cbn [with_mem h_keys h_side h_mem]. split; auto. split; auto.
          destruct (mem_two _ _ _ _ _ _ _ _ _ Hm Hne Ht Hp) as (vx & Ax & vy & Lx & Ly & Ox & Zx & Ky). inversion Ox as [| | | | |a0 ms0 ? A1 Hc0 Hf Hnd Hms]; subst.
          assert (Hz : a0 <> 0). { intros ->. rewrite (cnt_cons 0), cnt_one in Zx. lia. }
          cbn [step_op] in E1. apply bind_ret in E1 as (q & Eq & E1). apply bind_ret in E1 as (l0 & El0 & E1). apply place_var in El0 as ->. rewrite Lx in E1. cbn [bind v_hold deref] in E1. rewrite (cell_live _ _ _ Hc0) in E1. cbn [bind] in E1. apply bind_ret in E1 as (h1 & E2 & E1). injection E1 as <-.
          assert (HK : forall y, keep y (s_mem (h_mem c)) h1). { intros y. eapply keep_trans; [apply keep_set, Hz|eapply keep_assign; eauto; congruence]. }
          split; [|now apply cov_same]. eapply J_mem; [exact HJ|exact Hm1|apply HK|auto].
        * intros s' Hl. eapply bad_put; [exact Hm|exact Hne|exact Hp|exact Ht|exact HJ|exact Hc|exact Hmild|exact Hl].
  Qed.
End At.

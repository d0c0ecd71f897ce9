(** With enough memory the callbacks do what they do in JsonHeapModel.v. *)
From Verif Require Import Base JsonModel ValueSpec ValueModel ValueFaultModel JsonHeapModel JsonOomModel JsonHeapProof3 ValueFaultProof.
From Coq Require Import List NArith ZArith Bool Lia Arith.
From Coq.Init Require Import Byte.
From Coq.Strings Require Import Byte.
Import ListNotations.

Section Enough.
  Variable alloc : nat -> bool.
  Hypothesis yes : forall n, alloc n = true.
  Variable grows : nat -> bool.
  Local Open Scope cmd_scope.
  Notation K := (K_fault alloc grows).
  Notation H := (K_heap grows).

  (** the result [r] of a command, and what it is with memory *)
  Definition pt (r : fstate * outcome unit) (o : outcome hstate) : Prop :=
    match snd r with
    | Ret _ => o = Ret (f_h (fst r))
    | Throw e => o = Throw e
    | UB u => o = UB u
    | Diverge => o = Diverge
    | Exit k => o = Exit k
    end.
  Lemma pt_seq m m' o1 k c : pt (m c) o1 -> (forall c', o1 = Ret (f_h c') -> pt (m' c') (k (f_h c'))) -> pt ((_ <- m ;; m') c) (bind o1 k).
  Proof.
    unfold cbind. destruct (m c) as [c1 [[]|e|u| |x]]; unfold pt at 1; cbn [fst snd]; intros H1 H2.
    - rewrite H1. cbn [bind]. auto.
    - rewrite H1. reflexivity.
    - rewrite H1. reflexivity.
    - rewrite H1. reflexivity.
    - rewrite H1. reflexivity.
  Qed.
  Lemma pt_ask c : pt (f_ask alloc c) (Ret (f_h c)).
  Proof. unfold f_ask. rewrite yes. reflexivity. Qed.
  Lemma pt_do o c : pt (f_do alloc o c) (s <- step_op (h_mem (f_h c)) o ;; Ret (with_mem (f_h c) s))%outcome.
  Proof.
    unfold f_do. pose proof (step_yes alloc yes (h_mem (f_h c)) (f_n c) o) as Hn. destruct (step_op (h_mem (f_h c)) o) as [s|e|u| |x]; cbn [runs] in Hn; [destruct Hn as (n & ->)|rewrite Hn..]; reflexivity.
  Qed.
  Lemma pt_all l : forall c, pt (f_all alloc l c) (s <- do_ops (h_mem (f_h c)) l ;; Ret (with_mem (f_h c) s))%outcome.
  Proof.
    induction l as [|o l IH]; intros c; cbn [f_all do_ops].
    - cbn. destruct (f_h c); reflexivity.
    - replace (s <- (st' <- step_op (h_mem (f_h c)) o ;; do_ops st' l) ;; Ret (with_mem (f_h c) s))%outcome
        with (c1 <- (s <- step_op (h_mem (f_h c)) o ;; Ret (with_mem (f_h c) s)) ;; s <- do_ops (h_mem c1) l ;; Ret (with_mem c1 s))%outcome by (destruct (step_op _ _); reflexivity).
      apply pt_seq; [apply pt_do|]. intros c' _. apply IH.
  Qed.
  Lemma pt_set f c : pt (f_set f c) (f (f_h c)).
  Proof. unfold f_set. destruct (f (f_h c)); cbn; auto. Qed.
  Lemma pt_ask_seq m o c : (forall c', f_h c' = f_h c -> pt (m c') o) -> pt ((_ <- f_ask alloc ;; m) c) o.
  Proof.
    intros Hm. replace o with (bind (Ret (f_h c)) (fun _ => o)) by reflexivity. apply (pt_seq (f_ask alloc) m (Ret (f_h c)) (fun _ => o)); [apply pt_ask|]. intros c' E. apply Hm. now injection E.
  Qed.

  Lemma pt_parent c : pt (f_set_parent alloc c) (h_set_parent (f_h c)).
  Proof.
    unfold f_set_parent, h_set_parent. set (act := match h_keys (f_h c) with [] => _ | _ => _ end).
    replace (st' <- act ;; st'' <- step_op st' (Destroy v_param) ;; Ret (mkH st'' (h_keys (f_h c)) (h_side (f_h c)) (h_pushes (f_h c))))%outcome
      with (c1 <- (s <- act ;; Ret (with_mem (f_h c) s)) ;; s <- step_op (h_mem c1) (Destroy v_param) ;; Ret (with_mem c1 s))%outcome by (destruct act; reflexivity).
    apply pt_seq; [|intros; apply pt_do]. subst act. destruct (h_keys (f_h c)) as [|key ks] eqn:Ek; [apply pt_do|].
    apply pt_ask_seq. intros c' E'. unfold lift, cbind at 1. destruct (load (s_mem (h_mem (f_h c))) (0, At (top (f_h c)))) as [par| | | |]; cbn [bind]; try (cbn; auto; fail).
    destruct (v_kind par); try (cbn; rewrite E'; destruct (f_h c); reflexivity); rewrite <- E'; apply pt_do.
  Qed.
  Lemma pt_leaf x c : pt (f_leaf alloc x c) (h_leaf x (f_h c)).
  Proof.
    unfold f_leaf, h_leaf.
    replace (st <- do_ops (h_mem (f_h c)) [New v_local x; Copy v_param (v_local, [])] ;; c0 <- h_set_parent (with_mem (f_h c) st) ;; st0 <- do_ops (h_mem c0) [Destroy v_local] ;; Ret (with_mem c0 st0))%outcome
      with (c1 <- (s <- do_ops (h_mem (f_h c)) [New v_local x; Copy v_param (v_local, [])] ;; Ret (with_mem (f_h c) s)) ;; c2 <- h_set_parent c1 ;; s <- step_op (h_mem c2) (Destroy v_local) ;; Ret (with_mem c2 s))%outcome.
    - apply pt_seq; [apply pt_all|]. intros c1 _. apply pt_seq; [apply pt_parent|]. intros c2 _. apply pt_do.
    - destruct (do_ops _ _) as [s1| | | |]; cbn [bind]; auto. destruct (h_set_parent _) as [c2| | | |]; cbn [bind do_ops]; auto. destruct (step_op _ _); reflexivity.
  Qed.
  Lemma pt_lend z c : pt (f_lend alloc z c)
    ('(h, w) <- copy_construct (s_mem (h_mem (f_h c)) ++ [Auto (BInt z)]) (mkV KInt (HPtr (length (s_mem (h_mem (f_h c)))))) ;; s <- begin_var (s_alive (h_mem (f_h c))) h v_param w ;; Ret (with_mem (f_h c) s))%outcome.
  Proof.
    unfold f_lend. set (st := h_mem (f_h c)). pose proof (copy_construct_yes alloc yes (s_alive st) (s_mem st ++ [Auto (BInt z)]) (f_n c) v_param (mkV KInt (HPtr (length (s_mem st))))) as Hn. cbn zeta.
    destruct (copy_construct (s_mem st ++ [Auto (BInt z)]) _) as [[h w]|e|u| |x]; cbn [bind runs] in *; [|rewrite Hn; reflexivity..].
    destruct (begin_var (s_alive st) h v_param w) as [s|e|u| |x]; cbn [bind runs] in *; [destruct Hn as (n & ->)|rewrite Hn..]; reflexivity.
  Qed.
  Lemma pt_number z c : pt (f_number alloc z c) (h_number z (f_h c)).
  Proof.
    unfold f_number, h_number. set (st := h_mem (f_h c)). set (v := mkV KInt (HPtr (length (s_mem st)))).
    replace ('(h, w) <- copy_construct (s_mem st ++ [Auto (BInt z)]) v ;; st0 <- begin_var (s_alive st) h v_param w ;; c0 <- h_set_parent (with_mem (f_h c) st0) ;;
             h0 <- destroy (fuel_of (s_mem (h_mem c0))) (s_mem (h_mem c0)) v ;; Ret (with_mem c0 (mkS (s_alive (h_mem c0)) (set_nth (length (s_mem st)) Dead h0))))%outcome
      with (c1 <- ('(h, w) <- copy_construct (s_mem st ++ [Auto (BInt z)]) v ;; s <- begin_var (s_alive st) h v_param w ;; Ret (with_mem (f_h c) s)) ;; c0 <- h_set_parent c1 ;;
             h0 <- destroy (fuel_of (s_mem (h_mem c0))) (s_mem (h_mem c0)) v ;; Ret (with_mem c0 (mkS (s_alive (h_mem c0)) (set_nth (length (s_mem st)) Dead h0))))%outcome.
    - apply pt_seq; [apply pt_lend|]. intros c1 _. apply pt_seq; [apply pt_parent|]. intros c2 _. apply (pt_set (fun c => (h <- destroy (fuel_of (s_mem (h_mem c))) (s_mem (h_mem c)) v ;; Ret (with_mem c (mkS (s_alive (h_mem c)) (set_nth (length (s_mem st)) Dead h))))%outcome)).
    - destruct (copy_construct _ _) as [[h w]| | | |]; cbn [bind]; auto. destruct (begin_var _ _ _ _); reflexivity.
  Qed.
  Lemma pt_copies side old l : forall c, pt (f_copies alloc side old l c) (s <- do_ops (h_mem (f_h c)) (map (fun i => Copy (v_stack side i) (v_stack old i, [])) l) ;; Ret (with_mem (f_h c) s))%outcome.
  Proof.
    induction l as [|i l IH]; intros c; cbn [f_copies map do_ops].
    - cbn. destruct (f_h c); reflexivity.
    - match goal with |- pt _ (bind (bind ?r _) _) => replace (s <- (st' <- r ;; do_ops st' (map (fun i => Copy (v_stack side i) (v_stack old i, [])) l)) ;; Ret (with_mem (f_h c) s))%outcome
        with (c1 <- (s <- r ;; Ret (with_mem (f_h c) s)) ;; s <- do_ops (h_mem c1) (map (fun i => Copy (v_stack side i) (v_stack old i, [])) l) ;; Ret (with_mem c1 s))%outcome by (destruct r; reflexivity) end.
      apply pt_seq; [apply pt_do|]. intros c' _. apply pt_ask_seq. intros c2 <-. apply IH.
  Qed.
  Lemma pt_begin x c : pt (f_begin alloc grows x c) (h_begin grows x (f_h c)).
  Proof.
    unfold f_begin, h_begin. cbn zeta. set (g := grows (h_pushes (f_h c))). set (d := depth (f_h c)). set (old := h_side (f_h c)). set (side := if g then negb old else old). set (ks := h_keys (f_h c)). set (np := h_pushes (f_h c)).
    set (mid := fun st : state => (if g then do_ops st (map (fun i => Copy (v_stack side i) (v_stack old i, [])) (indices d) ++ map (fun i => Destroy (v_stack old i)) (indices d)) else Ret st)%outcome).
    match goal with |- pt _ ?o => replace o with
      (c1 <- (s <- do_ops (h_mem (f_h c)) [New v_local x; Copy v_made (v_local, []); Move v_conv (v_made, [])] ;; Ret (with_mem (f_h c) s)) ;;
       c2 <- Ret c1 ;;
       c3 <- (s <- step_op (h_mem c2) (Move (v_stack side d) (v_conv, [])) ;; Ret (with_mem c2 s)) ;;
       c4 <- (s <- mid (h_mem c3) ;; Ret (with_mem c3 s)) ;;
       c5 <- (s <- do_ops (h_mem c4) [Destroy v_conv; Destroy v_made; Destroy v_local] ;; Ret (with_mem c4 s)) ;;
       Ret (mkH (h_mem c5) ([] :: h_keys c5) side (S (h_pushes c5))))%outcome end.
    - apply pt_seq; [apply pt_all|]. intros c1 _. apply pt_seq.
      { destruct g; [apply pt_ask|]. reflexivity. }
      intros c2 _. apply pt_seq; [apply pt_do|]. intros c3 _. apply pt_seq.
      { unfold mid. destruct g; [|cbn; destruct (f_h c3); reflexivity].
        replace (s <- do_ops (h_mem (f_h c3)) (map (fun i => Copy (v_stack side i) (v_stack old i, [])) (indices d) ++ map (fun i => Destroy (v_stack old i)) (indices d)) ;; Ret (with_mem (f_h c3) s))%outcome
          with (c' <- (s <- do_ops (h_mem (f_h c3)) (map (fun i => Copy (v_stack side i) (v_stack old i, [])) (indices d)) ;; Ret (with_mem (f_h c3) s)) ;; s <- do_ops (h_mem c') (map (fun i => Destroy (v_stack old i)) (indices d)) ;; Ret (with_mem c' s))%outcome.
        - apply pt_seq; [apply pt_copies|]. intros c' _. apply pt_all.
        - rewrite ops_app. destruct (do_ops (h_mem (f_h c3)) _); reflexivity. }
      intros c4 _. apply pt_seq; [apply pt_all|]. intros c5 _. apply (pt_set (fun c => Ret (mkH (h_mem c) ([] :: h_keys c) side (S (h_pushes c))))).
    - cbn [do_ops]. destruct (step_op (h_mem (f_h c)) _) as [s1| | | |]; cbn [bind]; auto. destruct (step_op s1 _) as [s2| | | |]; cbn [bind]; auto. destruct (step_op s2 _) as [s3| | | |]; cbn [bind with_mem h_mem]; auto.
      destruct (step_op s3 _) as [s4| | | |]; cbn [bind with_mem h_mem]; auto. unfold mid. fold g. fold old. fold side. fold d. destruct (if g then _ else Ret s4) as [s5| | | |]; cbn [bind with_mem h_mem h_keys h_pushes]; auto.
      destruct (step_op s5 _) as [s6| | | |]; cbn [bind]; auto. destruct (step_op s6 _) as [s7| | | |]; cbn [bind]; auto. destruct (step_op s7 _); reflexivity.
  Qed.
  Lemma pt_end c : pt (f_end alloc c) (h_end (f_h c)).
  Proof.
    unfold f_end, h_end. cbn zeta. destruct (h_keys (f_h c)) as [|k ks] eqn:Ek; [cbn; auto|].
    match goal with |- pt _ ?o => replace o with
      (c1 <- (s <- do_ops (h_mem (f_h c)) [Copy v_local (top (f_h c), []); Destroy (top (f_h c))] ;; Ret (with_mem (f_h c) s)) ;;
       c2 <- Ret (mkH (h_mem c1) ks (h_side c1) (h_pushes c1)) ;;
       c3 <- (s <- step_op (h_mem c2) (Copy v_param (v_local, [])) ;; Ret (with_mem c2 s)) ;;
       c4 <- h_set_parent c3 ;;
       s <- step_op (h_mem c4) (Destroy v_local) ;; Ret (with_mem c4 s))%outcome end.
    - apply pt_seq; [apply pt_all|]. intros c1 _. apply pt_seq; [apply (pt_set (fun c => Ret (mkH (h_mem c) ks (h_side c) (h_pushes c))))|]. intros c2 _. apply pt_seq; [apply pt_do|]. intros c3 _. apply pt_seq; [apply pt_parent|]. intros c4 _. apply pt_do.
    - cbn [do_ops]. destruct (step_op (h_mem (f_h c)) _) as [s1| | | |]; cbn [bind]; auto. destruct (step_op s1 _) as [s2| | | |]; cbn [bind with_mem h_mem h_side h_pushes]; auto. destruct (step_op s2 _) as [s3| | | |]; cbn [bind]; auto.
      cbn [with_mem h_mem h_side h_pushes h_keys]. destruct (h_set_parent _) as [c4| | | |]; cbn [bind]; auto. destruct (step_op (h_mem c4) _); reflexivity.
  Qed.

  (** ** Commands *)
  Definition sc {A} (m : cmd fstate A) (m' : cmd hstate A) : Prop :=
    forall c,
      match m c with
      | (c', Ret a) => m' (f_h c) = (f_h c', Ret a)
      | (_, Throw e) => exists c2, m' (f_h c) = (c2, Throw e)
      | (_, UB u) => exists c2, m' (f_h c) = (c2, UB u)
      | (_, Diverge) => exists c2, m' (f_h c) = (c2, Diverge)
      | (_, Exit k) => exists c2, m' (f_h c) = (c2, Exit k)
      end.
  Lemma sc_bind {A B} (m : cmd fstate A) m' (k : A -> cmd fstate B) k' : sc m m' -> (forall a, sc (k a) (k' a)) -> sc (cbind m k) (cbind m' k').
  Proof.
    intros Hm Hk c. specialize (Hm c). unfold cbind. destruct (m c) as [c1 [a|e|u| |x]].
    - rewrite Hm. apply (Hk a c1).
    - destruct Hm as (c2 & ->). eauto.
    - destruct Hm as (c2 & ->). eauto.
    - destruct Hm as (c2 & ->). eauto.
    - destruct Hm as (c2 & ->). eauto.
  Qed.
  Lemma sc_ret {A} (a : A) : sc (cret a) (cret a).
  Proof. intros c. reflexivity. Qed.
  Lemma sc_lift {A} (o : outcome A) : sc (lift o) (lift o).
  Proof. intros c. unfold lift. destruct o; eauto. Qed.
  Lemma sc_pt m f : (forall c, pt (m c) (f (f_h c))) -> sc m (hcmd f).
  Proof.
    intros Hp c. specialize (Hp c). unfold hcmd. destruct (m c) as [c1 [[]|e|u| |x]]; unfold pt in Hp; cbn [fst snd] in Hp.
    - now rewrite Hp.
    - rewrite Hp. eauto.
    - rewrite Hp. eauto.
    - rewrite Hp. eauto.
    - rewrite Hp. eauto.
  Qed.
  Lemma sc_bool b : sc (k_boolean K b) (k_boolean H b).
  Proof. apply sc_pt. apply pt_leaf. Qed.
  Lemma sc_num z : sc (k_number K z) (k_number H z).
  Proof. apply sc_pt. intros c. apply pt_ask_seq. intros c1 E1. apply pt_ask_seq. intros c2 E2. rewrite <- E1, <- E2. apply pt_number. Qed.
  Lemma sc_str s b : sc (k_string K s b) (k_string H s b).
  Proof. apply sc_pt. intros c. apply pt_ask_seq. intros c1 E1. apply pt_ask_seq. intros c2 E2. rewrite <- E1, <- E2. destruct b; [apply (pt_set (h_key s))|apply pt_leaf]. Qed.
  Lemma sc_arr : sc (k_begin_array K) (k_begin_array H).
  Proof. apply sc_pt. apply pt_begin. Qed.
  Lemma sc_obj : sc (k_begin_object K) (k_begin_object H).
  Proof. apply sc_pt. apply pt_begin. Qed.
  Lemma sc_end : sc (k_end K) (k_end H).
  Proof. apply sc_pt. apply pt_end. Qed.

  Ltac go := repeat first
    [ apply sc_bool | apply sc_num | apply sc_str | apply sc_arr | apply sc_obj | apply sc_end | apply sc_lift | apply sc_ret | assumption
    | match goal with |- sc (cbind _ _) (cbind _ _) => apply sc_bind; [|intros] end
    | match goal with |- context [let '(_, _) := ?p in _] => destruct p end
    | match goal with |- sc (if ?b then _ else _) _ => destruct b end ].
  Lemma sc_string isKey s : sc (kparse_string K isKey s) (kparse_string H isKey s).
  Proof. unfold kparse_string. go. Qed.
  Lemma sc_boolean lay s : sc (kparse_boolean K lay s) (kparse_boolean H lay s).
  Proof. unfold kparse_boolean. go. Qed.
  Lemma sc_number s : sc (kparse_number K s) (kparse_number H s).
  Proof. unfold kparse_number. go. Qed.
  Lemma sc_elems pv pv' : (forall s, sc (pv s) (pv' s)) -> forall fuel s, sc (kelems_loop pv fuel s) (kelems_loop pv' fuel s).
  Proof. intros Hp. induction fuel as [|f IH]; intros s; cbn [kelems_loop]; go; auto. Qed.
  Lemma sc_members pv pv' : (forall s, sc (pv s) (pv' s)) -> forall fuel s, sc (kmembers_loop K pv fuel s) (kmembers_loop H pv' fuel s).
  Proof. intros Hp. induction fuel as [|f IH]; intros s; cbn [kmembers_loop]; [go|]. apply sc_bind; [apply sc_string|]. intros [b s1]. go; auto. Qed.
  Lemma sc_value lay : forall fuel s, sc (kparse_value K lay fuel s) (kparse_value H lay fuel s).
  Proof.
    induction fuel as [|f IH]; intros s; cbn [kparse_value]; [go|].
    apply sc_bind. { unfold kparse_object. go. now apply sc_members. } intros [b s1]. destruct b; [go|].
    apply sc_bind. { unfold kparse_array. go. now apply sc_elems. } intros [b s2]. destruct b; [go|].
    apply sc_bind; [apply sc_string|]. intros [b s3]. destruct b; [go|].
    apply sc_bind; [apply sc_boolean|]. intros [b s4]. destruct b; [go|].
    apply sc_bind; [apply sc_number|]. intros [b s5]. go.
  Qed.
  Lemma sc_parse lay s c :
    match f_parse alloc grows lay s c with
    | (c', Ret ok) => exists c2, kparse H lay s (f_h c) = (c2, Ret ok) /\ (ok = true -> c2 = f_h c')
    | (_, Throw e) => exists c2, kparse H lay s (f_h c) = (c2, Throw e)
    | (_, UB u) => exists c2, kparse H lay s (f_h c) = (c2, UB u)
    | (_, Diverge) => exists c2, kparse H lay s (f_h c) = (c2, Diverge)
    | (_, Exit k) => exists c2, kparse H lay s (f_h c) = (c2, Exit k)
    end.
  Proof.
    unfold f_parse, cbind, kparse. pose proof (sc_value lay (S (length s)) s c) as Hv. destruct (kparse_value K lay _ s c) as [c1 [a|e|u| |x]].
    - rewrite Hv. cbn. eauto.
    - destruct Hv as (c2 & Hv). rewrite Hv. destruct e; eauto. unfold f_ask. rewrite yes. cbn. eexists. split; [reflexivity|discriminate].
    - destruct Hv as (c2 & Hv). rewrite Hv. eauto.
    - destruct Hv as (c2 & Hv). rewrite Hv. eauto.
    - destruct Hv as (c2 & Hv). rewrite Hv. eauto.
  Qed.

  (** ** The constructor *)
  Definition near_base (r : fstate * outcome unit) (o : outcome state) : Prop :=
    match r with
    | (c', Ret _) => o = Ret (h_mem (f_h c'))
    | (_, Throw e) => o = Throw e
    | (_, UB u) => o = UB u
    | (_, Diverge) => o = Diverge
    | (_, Exit k) => o = Exit k
    end.
  Ltac fin H := cbn [near_base fst snd] in *; try discriminate H; try (injection H as ->); reflexivity.
  Lemma base_same lay text st n : near_base (f_base alloc grows lay text (mkFS (mkH st [] false 0) n)) (base_make grows lay text st).
  Proof.
    unfold f_base, base_make, parser_make. unfold cbind at 1.
    pose proof (pt_all [New v_args CUndef; New v_rets CUndef; New v_root CUndef] (mkFS (mkH st [] false 0) n)) as H1. cbn [f_h h_mem] in H1.
    change [New v_args CUndef; New v_rets CUndef; New v_root CUndef] with ([New v_args CUndef; New v_rets CUndef] ++ [New v_root CUndef]) in *. rewrite ops_app in H1.
    destruct (f_all alloc _ _) as [c1 [[]|e|u| |x]]; unfold pt in H1; cbn [fst snd] in H1.
    all: destruct (do_ops st [New v_args CUndef; New v_rets CUndef]) as [s1| | | |]; cbn [bind do_ops] in *; try solve [fin H1].
    all: destruct (step_op s1 (New v_root CUndef)) as [s2| | | |]; cbn [bind] in *; try solve [fin H1].
    injection H1 as H1. unfold cbind at 1. pose proof (sc_parse lay text c1) as H2. rewrite <- H1 in H2. unfold with_mem in H2 at 1 2 3 4 5. cbn [h_keys h_side h_pushes] in H2.
    destruct (f_parse alloc grows lay text c1) as [c2 [ok|e|u| |x]]; cbn [near_base].
    - destruct H2 as (c3 & E2 & Hok). rewrite E2. cbn [bind]. destruct ok; [|reflexivity]. rewrite (Hok eq_refl). clear Hok E2 c3.
      unfold cbind at 1. pose proof (pt_do (Assign (v_args, []) (v_root, [])) c2) as H3. destruct (f_do alloc _ c2) as [c4 [[]|e|u| |x]]; unfold pt in H3; cbn [fst snd] in H3;
        destruct (step_op (h_mem (f_h c2)) (Assign (v_args, []) (v_root, []))) as [s4| | | |]; cbn [bind near_base] in *; try solve [fin H3].
      injection H3 as H3. unfold f_results. unfold cbind at 1. unfold cbind at 1. unfold f_ask. rewrite yes.
      unfold f_set. cbn [f_h]. rewrite <- H3. cbn [with_mem h_mem].
      destruct (step_op _ (Delegate _ _)) as [s5| | | |]; cbn [bind near_base]; auto.
      unfold parser_drop. pose proof (pt_all (Destroy v_root :: map (fun i => Destroy (v_stack (h_side (f_h c2)) i)) (indices (depth (f_h c2)))) (mkFS (with_mem (f_h c4) s5) (S (f_n c4)))) as H5.
      cbn [f_h h_mem with_mem] in H5. rewrite <- H3 in H5. cbn [with_mem h_keys h_side h_pushes h_mem] in H5.
      unfold depth in *. cbn [with_mem h_keys h_side h_pushes h_mem f_h] in *.
      destruct (f_all alloc _ _) as [c6 [[]|e|u| |x]]; unfold pt in H5; cbn [fst snd near_base] in *; destruct (do_ops s5 _) as [s6| | | |]; cbn [bind] in *; try solve [fin H5].
      injection H5 as <-. reflexivity.
    - destruct H2 as (c3 & ->); auto.
    - destruct H2 as (c3 & ->); auto.
    - destruct H2 as (c3 & ->); auto.
    - destruct H2 as (c3 & ->); auto.
  Qed.
End Enough.

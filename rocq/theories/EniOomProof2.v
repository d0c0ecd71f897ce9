(** Calls one after the other, each with requests refused. *)
From Verif Require Import Base JsonModel JsonSpec JsonDenotes ValueSpec ValueModel ValueFaultModel JsonHeapSpec JsonHeapModel JsonOomSpec JsonOomModel EniHeapSpec EniOomSpec EniHeapModel EniOomModel EniOomSpec2 ValueProof ValueProof2 ValueProof3 ValueProof4 ValueProof5 ValueFaultProof ValueProof6 ValueProof7 ValueProof8 JsonHeapProof2 JsonHeapProof3 JsonHeapProof4 JsonHeapProof5 EniHeapProof JsonOomProof JsonOomProof2 JsonOomProof3 JsonOomProof7 JsonOomProof9 EniOomProof.
From Coq Require Import List NArith ZArith Bool Lia Arith.
From Coq.Init Require Import Byte.
Import ListNotations.

Lemma forgotten_mem n st : exists b, mem n b (forgotten n st) none 0.
Proof.
  exists (in_use (tl (s_mem st))). exists (env0 n). split; [|split].
  - exists [0]. unfold forgotten, env0. cbn [s_alive s_mem]. split; [reflexivity|]. split; [cbn [e_alive e_vars]; now rewrite !repeat_length|]. split.
    + unfold whole. cbn [e_vars]. apply (O_arr _ 0 (repeat (mkV KUndef HNull) n) (repeat TUndef n) []); [reflexivity|]. apply owns_undefs.
    + intros x. destruct (Nat.eq_dec 0 x) as [<-|E]; [rewrite cnt_one; lia|rewrite (cnt_other _ _ E); lia].
  - split; [|split]; [apply repeat_length|apply repeat_length|]. intros x. unfold look, none, env0. cbn [e_alive]. assert (is_alive (repeat false n) x = false) as ->; [|reflexivity].
    unfold is_alive. revert x. induction n as [|n IH]; intros [|x]; cbn; auto.
  - unfold forgotten. cbn [s_mem]. change (in_use (?a :: ?l)) with (in_use ([a] ++ l)). rewrite in_use_app. change (in_use [Auto (BArr (repeat (mkV KUndef HNull) n))]) with 0.
    assert (total n none = 0); [|lia]. unfold total, none. cbn [weight]. induction (seq 0 n); cbn; auto.
Qed.
Lemma mem_free n b s L : mem n b s none L -> mem n (b + L) s none 0.
Proof. intros (e & Hi & Hv & Hc). exists e. split; [exact Hi|]. split; [exact Hv|]. lia. Qed.

Section One.
  Variables alloc full : nat -> bool.
  Variables (k : call) (l : list ast) (n b : nat) (st : state).
  Hypothesis Hn : 7 + 2 * length (cstr (k_buf k)) <= n.
  Hypothesis Hm : mem n b st none 0.
  Hypothesis Ht : takes k l.

  Lemma one_served st' c' y : do_call_a alloc full k st 0 = Ret (st', c', y) ->
    served (mkTry k alloc full) l y /\ exists b', mem n b' (match y with Answered _ => st' | Refused => forgotten n st' end) none 0.
  Proof.
    destruct Ht as (r & Hg). intros E. pose proof (call_near alloc full k n b st l r 0 Hn Hm Hg) as H.
    assert (HE : (forall m, alloc m = true) -> exists a, call_answer k l = Ret a /\ y = Answered a).
    { intros yes. destruct (enough_call alloc yes full k n b st l r 0 Hn Hm Hg) as (s1 & c1 & Ee). rewrite E in Ee. destruct (call_answer k l) as [a| | | |]; try discriminate. cbn [bind] in Ee. injection Ee as _ _ ->. eauto. }
    destruct y as [a|].
    - assert (Hx : (exists a0, call_answer k l = Ret a0 /\ short_of a0 a) /\ exists L, mem n b st' none L).
      { destruct (made_a alloc k st 0) as [[[s1 c1] []]|x|u| |q]; rewrite E in H; try discriminate. exact H. }
      destruct Hx as ((a0 & E0 & Hs) & L & HL). split; [|eexists; eapply mem_free; exact HL]. cbn [served t_call t_alloc]. exists a0. split; [exact E0|]. split; [exact Hs|]. split.
      + intros Hk. destruct (gas_is k l a0 Hk E0) as (g & ->). destruct a; cbn in Hs; [exact Hs|destruct Hs; discriminate|destruct Hs as [|[]]; discriminate].
      + intros yes. destruct (HE yes) as (a1 & E1 & [= ->]). congruence.
    - split; [|apply forgotten_mem]. cbn [served t_alloc]. intros yes. destruct (HE yes) as (a1 & _ & E1). discriminate.
  Qed.
End One.

Definition fits (n : nat) (t : attempt) (l : list ast) : Prop := 7 + 2 * length (cstr (k_buf (t_call t))) <= n /\ takes (t_call t) l.
Lemma calls_served ts : forall n ls st b st' ys, mem n b st none 0 -> Forall2 (fits n) ts ls -> do_calls_a n ts st = Ret (st', ys) -> served_all ts ls ys.
Proof.
  induction ts as [|t ts IH]; intros n ls st b st' ys Hm HF E; cbn [do_calls_a] in E; inversion HF as [|t' l ts' ls' [Hn Ht] HF']; subst; clear HF.
  - injection E as _ <-. constructor.
  - apply bind_ret in E as ([[s1 c1] y] & E1 & E). apply bind_ret in E as ([s2 ys2] & E2 & E). injection E as _ <-. destruct t as [k alloc full]. cbn [t_call t_alloc t_full] in *.
    destruct (one_served alloc full k l n b st Hn Hm Ht _ _ _ E1) as [Hs (b' & Hm')]. constructor; [exact Hs|]. eapply IH; eauto.
Qed.

(** ** How the calls end *)
Lemma fate_mem alloc grows lay text n b st c x rest : 7 + 2 * length text <= n -> mem n b st none 0 -> gval (readable lay) text x rest -> types_kept x ->
  (exists st1 c' ok, base_make_a alloc grows lay text st c = Ret (st1, c', ok)) \/ base_make_a alloc grows lay text st c = UB NullDeref.
Proof.
  intros Hn Hm Hg Hk. destruct (base_mem grows lay text n b st Hn Hm) as [_ HB]. destruct (HB _ _ Hg) as (s1 & L1 & Eb & _). clear HB.
  pose proof (at_base alloc grows lay n b st text x rest Hn Hm Hg Hk c) as HA. pose proof (base_near alloc grows lay text st c) as HN. unfold base_make_a. rewrite Eb in *.
  destruct (f_base alloc grows lay text _) as [c' [[]|ex|u| |q]]; cbn [near_base] in HN; try discriminate.
  - left. eauto.
  - destruct HN as [->|HN]; [|discriminate]. left. destruct HA as ((s & e1 & Hi & Hs) & Hc). destruct (unwind_ok (passed (f_h c')) s e1 _ Hi Hs) as (s2 & e2 & s2' & _ & -> & _ & Hal). cbn [bind]. eauto.
  - destruct HN as [->|HN]; [|discriminate]. auto.
Qed.
Lemma one_fate alloc full k n b st l a : 7 + 2 * length (cstr (k_buf k)) <= n -> mem n b st none 0 -> takes k l -> types_kept (AArr l) -> call_answer k l = Ret a ->
  (exists st' c' y, do_call_a alloc full k st 0 = Ret (st', c', y)) \/ do_call_a alloc full k st 0 = UB NullDeref.
Proof.
  intros Hn Hm (r & Hg) Hk Ha. pose proof (call_near alloc full k n b st l r 0 Hn Hm Hg) as HC. unfold made_a, make_a in HC. destruct (negb (alloc 0) || negb (alloc 1)); [left; eauto|].
  destruct (fate_mem alloc (k_grows k) (k_lay k) (cstr (k_buf k)) n b st 2 (AArr l) r Hn Hm Hg Hk) as [(s1 & c1 & [] & H)|H]; rewrite H in HC; [|left; eauto|auto].
  destruct (do_call_a alloc full k st 0) as [[[s2 c2] y]|x|u| |q]; cbn [near_call] in HC; try congruence; [left; eauto|]. destruct HC as [->|HC]; [auto|congruence].
Qed.
Definition fits_well (n : nat) (t : attempt) (l : list ast) : Prop := fits n t l /\ types_kept (AArr l) /\ exists a, call_answer (t_call t) l = Ret a.
Lemma calls_fate ts : forall n ls st b, mem n b st none 0 -> Forall2 (fits_well n) ts ls ->
  (exists st' ys, do_calls_a n ts st = Ret (st', ys)) \/ do_calls_a n ts st = UB NullDeref.
Proof.
  induction ts as [|t ts IH]; intros n ls st b Hm HF; cbn [do_calls_a]; inversion HF as [|t' l ts' ls' ([Hn Ht] & Hk & a & Ha) HF']; subst; clear HF; [left; eauto|].
  destruct t as [k alloc full]. cbn [t_call t_alloc t_full] in *. destruct (one_fate alloc full k n b st l a Hn Hm Ht Hk Ha) as [(s1 & c1 & y & E)|E]; rewrite E; cbn [bind]; [|auto].
  destruct (one_served alloc full k l n b st Hn Hm Ht _ _ _ E) as [_ (b' & Hm')]. destruct (IH n ls' _ b' Hm' HF') as [(s2 & ys & ->)| ->]; cbn [bind]; [left; eauto|auto].
Qed.
Theorem calls_after n objs prog e log : arun (env0 n) prog = Some (e, log) -> (forall x, is_alive (e_alive e) x = false) ->
  exists st, run (state0 n objs) prog = Ret (st, log) /\
    (forall ts ls st' ys, Forall2 (fits n) ts ls -> do_calls_a n ts st = Ret (st', ys) -> served_all ts ls ys) /\
    (forall ts ls, Forall2 (fits_well n) ts ls -> (exists st' ys, do_calls_a n ts st = Ret (st', ys)) \/ do_calls_a n ts st = UB NullDeref).
Proof.
  intros Hr Hd. destruct (start n objs prog e log Hr) as (st & b & E & Hm). assert (Hm0 : mem n b st none 0). { eapply mem_ext; [|exact Hm]. intros y. unfold look. now rewrite Hd. }
  exists st. split; [exact E|]. split; intros; [eapply calls_served|eapply calls_fate]; eauto.
Qed.

(** Texts without objects, of the grammar or not. *)
From Verif Require Import Base JsonModel JsonSpec JsonDenotes ValueSpec ValueModel ValueFaultModel JsonHeapSpec JsonHeapModel JsonOomSpec JsonOomModel ValueProof ValueProof2 ValueProof3 ValueProof4 ValueProof5 ValueProof6 ValueProof7 ValueProof8 ValueFaultProof2 JsonProof JsonProof2 JsonHeapProof2 JsonHeapProof3 JsonHeapProof4 JsonHeapProof5 JsonOomProof JsonOomProof2 JsonOomProof3 JsonOomProof4 JsonOomProof5 JsonOomProof6 JsonOomProof7.
From Coq Require Import List NArith ZArith Bool Lia Arith.
From Coq.Init Require Import Byte.
Import ListNotations.

Lemma no_objects a : ~ In EvObj (events a) -> types_kept a.
Proof.
  induction a as [z|b|s|l IH|ms IH] using ast_ind2; intros H; cbn [types_kept]; auto.
  - apply fold_kept. rewrite Forall_forall in *. intros x Hx. apply IH; [exact Hx|]. intros Hi. apply H. cbn [events]. right. apply in_or_app. left. apply in_flat_map. eauto.
  - elim H. now left.
Qed.
Lemma gentle_begin es1 : forall es2 st, gentle (es1 ++ es2) st -> gentle es1 st.
Proof. induction es1 as [|e es1 IH]; intros es2 st H; cbn [app gentle] in *; [exact I|]. destruct H as [H1 H2]. split; [exact H1|]. destruct (tfire e st); eauto. Qed.

Section Bad.
  Variable alloc : nat -> bool.
  Variable grows : nat -> bool.
  Variable lay : layout.
  Notation R := (layout_lits lay).

  Lemma at_parse_bad n b c text L : 7 + 2 * length text <= n -> G n b c (TUndef, []) (Some TUndef) (Some TUndef) L -> J (TUndef = TUndef) (h_mem c) ->
    (forall x r, ~ gval R text x r) -> ~ In x7b text ->
    JsonOomProof5.at_ c (f_parse alloc grows lay text) (fun ok _ => ok = false).
  Proof.
    intros Hn HG HJ Hno Hb.
    destruct (kparse_value_ok (K_fault alloc grows) lay (S (length text)) text ltac:(lia)) as [(x' & r & Hg' & _)|(_ & msg & es & x & rest & He & _ & Hl & Ho & Hp)]; [now apply Hno in Hg'|].
    assert (Hk : types_kept x) by (apply no_objects; auto).
    assert (HM : mildp (denote x) (TUndef, [])) by (split; [apply denote_set|reflexivity]).
    pose proof (gentle_events x _ Hk HM) as Hge. pose proof (play_events x (TUndef, [])) as Hpl. rewrite He in *. apply gentle_begin in Hge. rewrite tplay_app in Hpl. destruct (tplay es (TUndef, [])) as [st1|] eqn:E1; [|discriminate]. clear Hpl.
    pose proof (at_play alloc grows n b (length text) es c (TUndef, []) _ _ L st1 Hn HG E1 ltac:(cbn [snd length]; lia) HJ Hge) as HA.
    destruct (play_ok grows n b (length text) es c _ _ _ _ _ Hn HG E1) as (ch & Lh & Eh & _); [cbn [snd length]; lia|].
    intros k. specialize (HA k). pose proof (sc_play alloc grows es (mkFS c k)) as HS. cbn [f_h] in HS. unfold f_parse, cbind at 1, kparse. rewrite Hp. unfold P, cbind at 1.
    destruct (play (K_fault alloc grows) es (mkFS c k)) as [c' [[]|e|u| |q]]; cbn [cret f_h]; auto.
    - destruct HA as (HJ1 & L1 & HG1). destruct c' as [c' k']. cbn [f_h lift] in *. unfold lift, cbind, f_ask. cbn [f_n f_h]. destruct (alloc k'); cbn [cret f_h]; [reflexivity|]. eapply bad_here; [exact HJ1|eapply G_cov; eauto].
    - destruct HS as [->|(c2 & HS)]; [exact HA|]. rewrite Eh in HS. discriminate.
  Qed.
  Local Open Scope cmd_scope.
  Lemma at_base_bad n b st text : 7 + 2 * length text <= n -> mem n b st (fun _ => None) 0 -> (forall x r, ~ gval R text x r) -> ~ In x7b text ->
    JsonOomProof5.at_ (mkH st [] false 0) (f_base alloc grows lay text) (fun _ _ => False).
  Proof.
    intros Hn Hm Hno Hb. unfold f_base. eapply at_bind; [apply (at_new3 alloc grows n b st); [lia|exact Hm]|]. intros [] c1 (L & HG & HJ).
    eapply at_bind; [eapply at_parse_bad; eauto|]. intros ok c2 ->. intros k. exact I.
  Qed.

  Theorem fate_no_object text n objs prog e log c : 7 + 2 * length text <= n -> arun (env0 n) prog = Some (e, log) -> (forall y, is_alive (e_alive e) y = false) ->
    ~ In x7b text ->
    exists st, run (state0 n objs) prog = Ret (st, log) /\
      ((exists st1 c', base_make_a alloc grows lay text st c = Ret (st1, c', true) /\ base_make grows lay text st = Ret st1) \/
       (exists st1 c', base_make_a alloc grows lay text st c = Ret (st1, c', false) /\ forall y, is_alive (s_alive st1) y = false) \/
       base_make_a alloc grows lay text st c = UB NullDeref \/
       base_make_a alloc grows lay text st c = Exit 87 /\ forall a r, ~ gval R text a r).
  Proof.
    intros Hn Hr Hfr Hb. destruct (kparse_value_ok (K_heap grows) lay (S (length text)) text ltac:(lia)) as [(x & r & Hg & _)|(Hno & _)].
    { destruct (fate alloc grows lay text n objs prog e log c x r Hn Hr Hfr Hg) as (st & E & H).
      - apply no_objects. intros Hi. apply Hb. eapply gval_obj; eauto.
      - exists st. split; [exact E|]. tauto. }
    destruct (base_ok grows lay text n objs prog e log Hn Hr Hfr) as (st & E & Hok & _). specialize (Hok Hno).
    exists st. split; [exact E|]. destruct (start n objs prog e log Hr) as (st' & b & E' & Hm). rewrite E in E'. injection E' as <-.
    assert (Hm0 : mem n b st (fun _ => None) 0). { eapply mem_ext; [|exact Hm]. intros y. unfold look. now rewrite Hfr. }
    pose proof (at_base_bad n b st text Hn Hm0 Hno Hb c) as HA. pose proof (base_near alloc grows lay text st c) as HN. unfold base_make_a. rewrite Hok in *.
    destruct (f_base alloc grows lay text _) as [c' [[]|ex|u| |q]]; cbn [near_base] in HN; try discriminate.
    - destruct HN as [->|HN]; [|discriminate]. right. left. destruct HA as ((s & e1 & Hi & Hs) & Hc). destruct (unwind_ok (passed (f_h c')) s e1 _ Hi Hs) as (s1 & e2 & s1' & _ & -> & _ & Hal). cbn [bind]. do 2 eexists. split; [reflexivity|].
      intros y. destruct (is_alive (s_alive s1') y) eqn:Ey; [|reflexivity]. destruct (Hal y Ey) as [H1 H2]. elim H2. apply Hc, H1.
    - destruct HN as [->|HN]; [|discriminate]. auto.
    - injection HN as <-. auto.
  Qed.
End Bad.

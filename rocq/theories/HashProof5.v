(** Assembly of the table results into the forms stated in HashProps.v. *)
From Verif Require Import Base HashModel HashSpec HashProof HashProof2 HashProof3 HashProof4
  HashHeapSpec HashHeapModel HashHeapProof HashHeapProof2.
From Coq Require Import List NArith ZArith Lia Bool Permutation Arith.
Import ListNotations.
Local Open Scope N_scope.

Section ByValue.
  Context {K V : Type}.
  Variable keqb : K -> K -> bool.
  Variable hash : K -> N.
  Variable dflt : V.
  Hypothesis keqb_ok : forall a b, reflect (a = b) (keqb a b).

  Lemma spec_step_total m o : plain o -> exists m' a, spec_step keqb dflt m o = Some (m', a).
  Proof. destruct o; cbn; intros H; try tauto; eauto. destruct (get keqb m k); eauto. Qed.

  Lemma spec_run_total l : forall m, Forall plain l -> exists m' as_, spec_run keqb dflt m l = Some (m', as_).
  Proof.
    induction l as [|o l IH]; intros m HF; cbn; eauto. inversion HF; subst.
    destruct (spec_step_total m o) as (m1 & a & ->); auto. destruct (IH m1) as (m2 & as_ & ->); eauto.
  Qed.

  Lemma step_load t m o m' a t' : models hash t m -> nE t < 2^28 -> load_inv t -> plain o ->
    spec_step keqb dflt m o = Some (m', a) -> step keqb hash dflt t o = Ret (t', a) -> load_inv t'.
  Proof.
    intros Hm Hn HL Hp Hs HR. pose proof (proj1 (proj1 Hm)) as HC.
    destruct o; cbn [step] in HR; try (injection HR as <- _; auto; fail).
    - apply bind_ret in HR as ([[x ex] e] & Hi & [= <- _]). eapply insert_load; eauto.
    - apply bind_ret in HR as ([[x ex] e] & Hi & [= <- _]). eapply insert_load; eauto.
    - apply bind_ret in HR as ([x ex] & Hi & [= <- _]). eapply erase_load; eauto.
    - apply bind_ret in HR as (x & Hi & [= <- _]). auto.
    - injection HR as <- _. unfold clear. destruct (nE t =? 0); auto. split; [vm_compute; split; discriminate|]. left. reflexivity.
    - apply bind_ret in HR as (x & Hi & [= <- _]). eapply rehash_load; eauto.
    - destruct Hp.
  Qed.

  Lemma run_load l : forall t m m' as_ t', models hash t m -> nE t + N.of_nat (length l) <= 2^28 -> load_inv t ->
    Forall plain l -> spec_run keqb dflt m l = Some (m', as_) -> run keqb hash dflt t l = Ret (t', as_) -> load_inv t'.
  Proof.
    change (2^28) with 268435456.
    induction l as [|o l IH]; intros t m m' as_ t' Hm Hn HL HF Hs HR.
    - cbn in *. injection HR as <- _. auto.
    - cbn [length] in Hn. cbn [spec_run run] in *. inversion HF as [|? ? Ho Hl]; subst.
      destruct (spec_step keqb dflt m o) as [[m1 a]|] eqn:E1; [|discriminate].
      destruct (spec_run keqb dflt m1 l) as [[m2 as2]|] eqn:E2; [|discriminate]. injection Hs as <- <-.
      destruct (step_ok keqb hash keqb_ok dflt t m o m1 a Hm) as (t1 & S1 & M1 & N1); auto; [change (2^28) with 268435456; lia|].
      rewrite S1 in HR. cbn [bind] in HR. apply bind_ret in HR as ([t2 as2'] & R2 & HR). injection HR as <- ->.
      apply (IH t1 m1 m2 as2 t2); auto; [lia|]. apply (step_load t m o m1 a t1); auto. change (2^28) with 268435456; lia.
  Qed.

  (** everything about a table reached by a history *)
  Lemma reached size l m as_ : size < 2^28 -> N.of_nat (length l) <= 2^28 ->
    spec_run keqb dflt [] l = Some (m, as_) ->
    exists t, run keqb hash dflt (new_table size) l = Ret (t, as_) /\ models hash t m /\ einv t /\
              (Forall plain l -> load_inv t).
  Proof.
    intros Hs Hl Hr. destruct (models_new (V := V) hash size Hs) as [M0 N0].
    destruct (run_new_ok keqb hash keqb_ok dflt size l m as_ Hs Hl Hr) as (t & HR & HM).
    exists t. split; auto. split; auto. split.
    - apply (run_einv keqb hash keqb_ok dflt l (new_table size) [] m as_ t); auto; [apply new_einv|]. rewrite N0. lia.
    - intros HF. apply (run_load l (new_table size) [] m as_ t); auto; [rewrite N0; lia|].
      apply (new_load (K := K) fst hash). auto.
  Qed.
End ByValue.

Section World.
  Context {K V : Type}.
  Variable keqb : K -> K -> bool.
  Variable hash : K -> N.
  Variable dflt : V.
  Variable k0 : K.
  Hypothesis keqb_ok : forall a b, reflect (a = b) (keqb a b).
  Notation world := (world K V).
  Notation stab := (stab K V).
  Notation leaves := (HashHeapSpec.leaves (V := V) keqb).
  Notation contents := (HashHeapSpec.contents (V := V) keqb).
  Notation contents_eq := (HashHeapSpec.contents_eq (V := V) keqb).

  Lemma wstep_other w o a w' c st : wstep keqb dflt w o a w' -> leaves w c o -> tab w c = Some st -> tab w' c = Some st.
  Proof.
    intros HW [Ht Hw] Hc. assert (Hin : (c < length (tabs w))%nat) by (apply nth_error_Some; unfold tab in Hc; congruence).
    unfold tab in *. destruct HW; cbn [tabs targets] in *; auto;
      try (rewrite nth_error_app1 by auto; auto); try (rewrite tab_set_ne by tauto; auto).
    - destruct (Nat.eq_dec i c) as [->|Hd]; [|rewrite tab_set_ne by tauto; auto].
      exfalso. apply (Hw p v' k eq_refl). exists (mkS m b). split; auto. exists v. auto.
    - rewrite nth_error_app1 by (rewrite set_tab_upd, upd_length; auto). rewrite tab_set_ne by tauto. auto.
    - rewrite tab_set_ne by tauto. auto.
  Qed.

  Lemma wexec_other w l as_ w' c st : wexec keqb dflt w l as_ w' -> Forall (leaves w c) l -> tab w c = Some st -> tab w' c = Some st.
  Proof.
    induction 1 as [|w o a w1 l as_ w2 Hs Hx IH]; auto. intros HF Hc.
    inversion HF as [|? ? Ho Hl]; subst.
    assert (H1 : tab w1 c = Some st) by (eapply wstep_other; eauto).
    apply IH; auto. eapply Forall_impl; [|exact Hl]. intros o' [Ha Hb]. split; auto.
    intros p v k He Hown. apply (Hb p v k He). destruct Hown as (st' & Hn & Hh). exists st'. split; auto.
    unfold tab in *. congruence.
  Qed.

  Lemma wexec_split w l1 l2 as_ w' : wexec keqb dflt w (l1 ++ l2) as_ w' ->
    exists as1 as2 w1, as_ = as1 ++ as2 /\ length as1 = length l1 /\ wexec keqb dflt w l1 as1 w1 /\ wexec keqb dflt w1 l2 as2 w'.
  Proof.
    revert w as_. induction l1 as [|o l1 IH]; intros w as_ H; cbn in *.
    - exists [], as_, w. split; auto. split; auto. split; [constructor|auto].
    - inversion H as [|? ? a w1 ? as0 ? Hs Hx]; subst. destruct (IH _ _ Hx) as (as1 & as2 & w2 & -> & HL & H1 & H2).
      exists (a :: as1), as2, w2. split; auto. split; [cbn; auto|]. split; auto. econstructor; eauto.
  Qed.

  Lemma wstep_insert_entry w i k ex p w' : wstep keqb dflt w (WInsert i k) (RInsert ex p) w' ->
    exists v, entry_at keqb w' i k p v /\ (ex = false -> v = dflt).
  Proof.
    inversion 1; subst.
    - exists v. split; [|discriminate]. exists (mkS m b). split; auto.
    - exists dflt. split; auto. exists (mkS (put keqb m k (p, dflt)) false). split.
      + unfold tab. cbn. eapply tab_set_eq. eauto.
      + cbn [smap]. rewrite (get_put keqb keqb_ok). destruct (keqb_ok k k); congruence.
  Qed.

  Lemma wstep_copy w i a w' : wstep keqb dflt w (WCopy i) a w' -> contents_eq w' (length (tabs w)) w i /\ length (tabs w') = S (length (tabs w)) /\
     contents_eq w' i w i.
  Proof.
    inversion 1; subst. cbn [tabs]. split; [|split].
    - intros k. unfold contents, tab in *. cbn [tabs]. rewrite nth_error_app2, Nat.sub_diag by lia. cbn [nth_error].
      match goal with H : nth_error (tabs w) i = Some _ |- _ => rewrite H end. cbn [smap].
      match goal with H : fresh_copy _ _ _ _ _ |- _ => destruct H as (_ & H & _) end. auto.
    - rewrite app_length. cbn. lia.
    - intros k. unfold contents, tab in *. cbn [tabs]. erewrite tab_app_l by eauto.
      match goal with H : nth_error (tabs w) i = Some _ |- _ => rewrite H end. reflexivity.
  Qed.

  Lemma wstep_assign w i j a w' : wstep keqb dflt w (WAssign i j) a w' -> contents_eq w' i w j /\ contents_eq w' j w j /\ i <> j.
  Proof.
    inversion 1; subst. cbn [tabs]. unfold contents_eq, contents, tab in *. cbn [tabs]. split; [|split]; auto.
    - intros k. erewrite tab_set_eq by eauto.
      match goal with H : nth_error (tabs w) j = Some _ |- _ => rewrite H end. cbn [smap].
      match goal with H : fresh_copy _ _ _ _ _ |- _ => destruct H as (_ & H & _) end. auto.
    - intros k. rewrite tab_set_ne by auto. reflexivity.
  Qed.

  Lemma contents_keep w c w' st : tab w c = Some st -> tab w' c = Some st -> contents_eq w' c w c.
  Proof. intros H H' k. unfold contents. rewrite H, H'. reflexivity. Qed.

  Lemma contents_trans w1 c1 w2 c2 w3 c3 : contents_eq w1 c1 w2 c2 -> contents_eq w2 c2 w3 c3 -> contents_eq w1 c1 w3 c3.
  Proof. intros A B k. rewrite A. apply B. Qed.

  Lemma entry_in_model s w n i k p v : R hash dflt k0 s w n -> n < 2^28 -> wf keqb w -> entry_at keqb w i k p v ->
    hstep keqb hash dflt k0 s (WRead p) = Ret (s, REntry k v) /\
    hstep keqb hash dflt k0 s (WFind i k) = Ret (s, RFind (Some p)).
  Proof.
    intros HR Hn [W1 W2] ([m b] & Ht & G). cbn [smap] in G. split.
    - destruct (hstep_ok keqb hash keqb_ok dflt k0 s w n (WRead p) HR Hn) as (s' & a & w' & H1 & H2 & _).
      { eexists _, _. eapply SRead; eauto. }
      cbn [hstep] in *. unfold h_read in *. destruct (nth_error (hp s) p) as [[[k1 v1]|]|]; try discriminate.
      injection H1 as <- <-. inversion H2 as [| | | |? i2 k2 m2 b2 p2 v2 Ht2 G2| | | | | | | | | |]; subst.
      destruct (W2 i k i2 k1 p) as [<- <-]; [eexists; split; [exact Ht|exists v; auto]|eexists; split; [exact Ht2|exists v1; auto]|].
      rewrite Ht in Ht2. injection Ht2 as <- <-. rewrite G in G2. injection G2 as ->. reflexivity.
    - destruct (hstep_ok keqb hash keqb_ok dflt k0 s w n (WFind i k) HR Hn) as (s' & a & w' & H1 & H2 & _).
      { eexists _, _. eapply SFind; eauto. }
      cbn [hstep] in *. unfold h_find, with_tab in *. destruct (nth_error (tbs s) i) as [t|]; try discriminate.
      destruct (find_entry (hkey k0 (hp s)) keqb hash t k) as [r| | | |]; try discriminate. cbn [bind] in *. injection H1 as <- <-.
      inversion H2; subst.
      match goal with H : tab _ i = Some (mkS ?m' _), H' : tab _ i = Some (mkS ?m _) |- _ => rewrite H in H'; injection H' as -> -> end.
      rewrite G. reflexivity.
  Qed.

  Lemma pointers_stay l : N.of_nat (length l) < 2^28 ->
    exists l1 l2 s as_ w, l = l1 ++ l2 /\ hrun keqb hash dflt k0 state0 l1 = Ret (s, as_) /\
      wexec keqb dflt world0 l1 as_ w /\ match l2 with [] => True | o :: _ => ~ enabled keqb dflt w o end /\
      (forall la i k lb aa ex p ab, l1 = la ++ WInsert i k :: lb -> as_ = aa ++ RInsert ex p :: ab -> length aa = length la ->
         Forall (fun o => ~ ends i k o) lb ->
         exists v, (ex = false -> v = dflt) /\
           hstep keqb hash dflt k0 s (WRead p) = Ret (s, REntry k (last_write p lb v)) /\
           hstep keqb hash dflt k0 s (WFind i k) = Ret (s, RFind (Some p))).
  Proof.
    intros Hl. destruct (hrun_ok keqb hash keqb_ok dflt k0 l state0 world0 0 (R0 hash dflt k0) ltac:(lia)) as (l1 & l2 & s & as_ & w & E & H1 & H2 & H3 & H4).
    exists l1, l2, s, as_, w. split; auto. split; auto. split; auto. split; auto.
    intros la i k lb aa ex p ab -> -> Hlen HF.
    apply wexec_split in H2 as (as1 & as2 & w1 & Has & HL & X1 & X2).
    assert (as1 = aa /\ as2 = RInsert ex p :: ab) as [-> ->].
    { rewrite <- Hlen in HL. clear - HL Has. revert aa HL Has. induction as1 as [|a as1 IH]; intros [|b aa] HL Has; cbn in *; try discriminate; auto.
      injection Has as -> Has. destruct (IH aa) as [-> ->]; auto. }
    inversion X2 as [|? ? ? w2 ? ? ? S2 X3]; subst.
    destruct (wstep_insert_entry _ _ _ _ _ _ S2) as (v & He & Hv).
    exists v. split; auto.
    assert (Hwf2 : wf keqb w2).
    { eapply wstep_wf; eauto. eapply wexec_wf; eauto. apply wf0. }
    apply (entry_in_model s w _ i k p (last_write p lb v) H3).
    - rewrite app_length in Hl. lia.
    - eapply wexec_wf; eauto.
    - eapply wexec_keeps; eauto.
  Qed.

  Lemma copies l : N.of_nat (length l) <= 2^28 ->
    exists l1 l2 s as_ w, l = l1 ++ l2 /\ hrun keqb hash dflt k0 state0 l1 = Ret (s, as_) /\
      wexec keqb dflt world0 l1 as_ w /\ match l2 with [] => True | o :: _ => ~ enabled keqb dflt w o end /\
      (forall la o lb, l1 = la ++ o :: lb ->
         exists w1 w2 as1 a as2,
           wexec keqb dflt world0 la as1 w1 /\ wstep keqb dflt w1 o a w2 /\ wexec keqb dflt w2 lb as2 w /\
           match o with
           | WCopy i =>
               let c := length (tabs w1) in
               contents_eq w2 c w1 i /\ contents_eq w2 i w1 i /\
               (Forall (leaves w2 c) lb -> contents_eq w c w1 i) /\
               (Forall (leaves w2 i) lb -> contents_eq w i w1 i)
           | WAssign i j =>
               contents_eq w2 i w1 j /\ contents_eq w2 j w1 j /\
               (Forall (leaves w2 i) lb -> contents_eq w i w1 j) /\
               (Forall (leaves w2 j) lb -> contents_eq w j w1 j)
           | _ => True
           end).
  Proof.
    intros Hl. destruct (hrun_ok keqb hash keqb_ok dflt k0 l state0 world0 0 (R0 hash dflt k0) ltac:(lia)) as (l1 & l2 & s & as_ & w & E & H1 & H2 & H3 & H4).
    exists l1, l2, s, as_, w. split; auto. split; auto. split; auto. split; auto.
    intros la o lb ->. apply wexec_split in H2 as (as1 & as2 & w1 & Has & HL & X1 & X2).
    inversion X2 as [|? ? a w2 ? as3 ? S2 X3]; subst. exists w1, w2, as1, a, as3. split; auto. split; auto. split; auto.
    assert (Hkeep : forall c, (c < length (tabs w2))%nat -> Forall (leaves w2 c) lb -> contents_eq w c w2 c).
    { intros c Hc HF. destruct (nth_error (tabs w2) c) as [st|] eqn:Ec; [|apply nth_error_None in Ec; lia].
      eapply contents_keep; [exact Ec|]. eapply wexec_other; eauto. }
    destruct o; auto.
    - cbn zeta. destruct (wstep_copy _ _ _ _ S2) as (A & B & C). split; auto. split; auto. split.
      + intros HF. eapply contents_trans; [apply Hkeep; auto; lia|exact A].
      + intros HF. eapply contents_trans; [apply Hkeep; auto|exact C].
        inversion S2; subst. unfold tab in *. assert (i < length (tabs w1))%nat by (apply nth_error_Some; congruence). lia.
    - destruct (wstep_assign _ _ _ _ _ S2) as (A & B & C). split; auto. split; auto.
      assert (Hlt : (i < length (tabs w2))%nat /\ (j < length (tabs w2))%nat).
      { inversion S2; subst. unfold tab in *. cbn [tabs]. rewrite set_tab_upd, upd_length. split; apply nth_error_Some; congruence. }
      split; intros HF; (eapply contents_trans; [apply Hkeep; auto; apply Hlt|auto]).
  Qed.
End World.

(** Ownership of the memory behind values. *)
From Verif Require Import Base ValueSpec ValueModel.
From Coq Require Import List NArith ZArith Bool Lia Arith.
Import ListNotations.

Definition cnt (A : list nat) (a : nat) : nat := count_occ Nat.eq_dec A a.
Lemma cnt_app A B a : cnt (A ++ B) a = cnt A a + cnt B a.
Proof. apply count_occ_app. Qed.
Lemma cnt_cons b A a : cnt (b :: A) a = cnt [b] a + cnt A a.
Proof. apply (cnt_app [b] A). Qed.
Lemma cnt_nil a : cnt [] a = 0.
Proof. reflexivity. Qed.
Lemma cnt_one a : cnt [a] a = 1.
Proof. unfold cnt. cbn. destruct (Nat.eq_dec a a); congruence. Qed.
Lemma cnt_other a b : a <> b -> cnt [a] b = 0.
Proof. intros H. unfold cnt. cbn. destruct (Nat.eq_dec a b); congruence. Qed.
Lemma cnt_in A a : In a A <-> 0 < cnt A a.
Proof. unfold cnt. rewrite (count_occ_In Nat.eq_dec). lia. Qed.
Lemma cnt_not A a : ~ In a A <-> cnt A a = 0.
Proof. rewrite cnt_in. lia. Qed.
Lemma cnt_nodup A : (forall a, cnt A a <= 1) <-> NoDup A.
Proof. unfold cnt. symmetry. apply (NoDup_count_occ Nat.eq_dec). Qed.

(** ** Lists *)
Lemma set_nth_length {A} n (v : A) l : length (set_nth n v l) = length l.
Proof. revert n. induction l as [|x l IH]; intros [|n]; cbn [set_nth length]; auto. Qed.
Lemma set_nth_same {A} n (v : A) l : n < length l -> nth_error (set_nth n v l) n = Some v.
Proof. revert n. induction l as [|x l IH]; intros [|n]; cbn [set_nth length nth_error]; intros H; auto; try lia. apply IH. lia. Qed.
Lemma set_nth_other {A} n m (v : A) l : n <> m -> nth_error (set_nth n v l) m = nth_error l m.
Proof. revert n m. induction l as [|x l IH]; intros [|n] [|m] H; cbn [set_nth nth_error]; auto; try lia. Qed.
Lemma set_nth_split {A} (v x : A) l1 l2 : set_nth (length l1) v (l1 ++ x :: l2) = l1 ++ v :: l2.
Proof. induction l1 as [|y l1 IH]; cbn [length set_nth app]; congruence. Qed.
Lemma set_nth_id {A} n (v : A) l : nth_error l n = Some v -> set_nth n v l = l.
Proof. revert n. induction l as [|x l IH]; intros [|n]; cbn [set_nth nth_error]; intros H; try congruence. f_equal. auto. Qed.
Lemma nth_mid {A} (x : A) l1 l2 : nth_error (l1 ++ x :: l2) (length l1) = Some x.
Proof. induction l1; cbn; auto. Qed.

Lemma beq_refl k : bytes_eqb k k = true.
Proof. destruct (bytes_eqb_spec k k); congruence. Qed.
Lemma assoc_split {A} k (v : A) ms : assoc k ms = Some v -> exists m1 m2, ms = m1 ++ (k, v) :: m2 /\ ~ In k (map fst m1).
Proof.
  induction ms as [|[j w] ms IH]; cbn [assoc]; [discriminate|]. destruct (bytes_eqb_spec j k) as [->|Hn]; intros H.
  - injection H as ->. exists [], ms. auto.
  - destruct (IH H) as (m1 & m2 & -> & Hi). exists ((j, w) :: m1), m2. cbn [map fst In]. intuition.
Qed.
Lemma assoc_mid {A} k (v : A) m1 m2 : ~ In k (map fst m1) -> assoc k (m1 ++ (k, v) :: m2) = Some v.
Proof.
  induction m1 as [|[j w] m1 IH]; cbn [app assoc map fst In]; intros H; [now rewrite beq_refl|]. destruct (bytes_eqb_spec j k); [tauto|]. apply IH. tauto.
Qed.
Lemma assoc_set_mid {A} k (v w : A) m1 m2 : ~ In k (map fst m1) -> assoc_set k w (m1 ++ (k, v) :: m2) = m1 ++ (k, w) :: m2.
Proof.
  induction m1 as [|[j x] m1 IH]; cbn [app assoc_set map fst In]; intros H; [now rewrite beq_refl|]. destruct (bytes_eqb_spec j k); [tauto|]. f_equal. apply IH. tauto.
Qed.
Lemma assoc_del_mid {A} k (v : A) m1 m2 : ~ In k (map fst m1) -> assoc_del k (m1 ++ (k, v) :: m2) = m1 ++ m2.
Proof.
  induction m1 as [|[j x] m1 IH]; cbn [app assoc_del map fst In]; intros H; [now rewrite beq_refl|]. destruct (bytes_eqb_spec j k); [tauto|]. f_equal. apply IH. tauto.
Qed.
Lemma assoc_none {A} k (ms : list (bytes * A)) : assoc k ms = None <-> ~ In k (map fst ms).
Proof.
  induction ms as [|[j x] ms IH]; cbn [assoc map fst In]; [tauto|]. destruct (bytes_eqb_spec j k); [split; [discriminate|tauto]|]. rewrite IH. tauto.
Qed.
Lemma assoc_set_new {A} k (w : A) ms : ~ In k (map fst ms) -> assoc_set k w ms = ms ++ [(k, w)].
Proof.
  induction ms as [|[j x] ms IH]; cbn [assoc_set map fst In app]; intros H; auto. destruct (bytes_eqb_spec j k); [tauto|]. f_equal. apply IH. tauto.
Qed.
Lemma assoc_del_new {A} k (ms : list (bytes * A)) : ~ In k (map fst ms) -> assoc_del k ms = ms.
Proof.
  induction ms as [|[j x] ms IH]; cbn [assoc_del map fst In app]; intros H; auto. destruct (bytes_eqb_spec j k); [tauto|]. f_equal. apply IH. tauto.
Qed.

(** ** Ownership *)
Definition cell_at (h : heap) (a : nat) (b : block) : Prop := nth_error h a = Some (if a =? 0 then Auto b else Heap b).
Lemma cell_live h a b : cell_at h a b -> live h a = Ret b.
Proof. unfold cell_at, live. intros ->. destruct (a =? 0); reflexivity. Qed.
Lemma cell_lt h a b : cell_at h a b -> a < length h.
Proof. unfold cell_at. intros H. apply nth_error_Some. congruence. Qed.
Lemma cell_set h a b b' : cell_at h a b -> cell_at (set_block h a b') a b'.
Proof.
  intros H. pose proof (cell_lt _ _ _ H). unfold cell_at, set_block in *. rewrite H. destruct (a =? 0); apply set_nth_same; auto.
Qed.
Lemma set_block_other h a b c : a <> c -> nth_error (set_block h a b) c = nth_error h c.
Proof. intros H. unfold set_block. destruct (nth_error h a) as [[]|]; auto; now apply set_nth_other. Qed.
Lemma set_block_length h a b : length (set_block h a b) = length h.
Proof. unfold set_block. destruct (nth_error h a) as [[]|]; auto; apply set_nth_length. Qed.
Lemma cell_frame h h' a b : nth_error h' a = nth_error h a -> cell_at h a b -> cell_at h' a b.
Proof. unfold cell_at. congruence. Qed.

Inductive owns (h : heap) : val -> tree -> list nat -> Prop :=
| O_undef p : owns h (mkV KUndef p) TUndef []
| O_bool b : owns h (mkV KBool (HBool b)) (TBool b) []
| O_int a z : cell_at h a (BInt z) -> owns h (mkV KInt (HPtr a)) (TInt z) [a]
| O_str a s : cell_at h a (BStr s) -> owns h (mkV KStr (HPtr a)) (TStr s) [a]
| O_arr a vs ts A : cell_at h a (BArr vs) -> owns_list h vs ts A -> owns h (mkV KArr (HPtr a)) (TArr ts) (a :: A)
| O_obj a ms mt A : cell_at h a (BObj ms) -> map fst ms = map fst mt -> NoDup (map fst ms) -> owns_list h (map snd ms) (map snd mt) A ->
    owns h (mkV KObj (HPtr a)) (TObj mt) (a :: A)
with owns_list (h : heap) : list val -> list tree -> list nat -> Prop :=
| OL_nil : owns_list h [] [] []
| OL_cons v t A vs ts B : owns h v t A -> owns_list h vs ts B -> owns_list h (v :: vs) (t :: ts) (A ++ B).
Scheme owns_mind := Induction for owns Sort Prop with owns_list_mind := Induction for owns_list Sort Prop.

Lemma owns_ind2 h (P : val -> tree -> list nat -> Prop) (Q : list val -> list tree -> list nat -> Prop) :
  (forall p, P (mkV KUndef p) TUndef []) -> (forall b, P (mkV KBool (HBool b)) (TBool b) []) ->
  (forall a z, cell_at h a (BInt z) -> P (mkV KInt (HPtr a)) (TInt z) [a]) ->
  (forall a s, cell_at h a (BStr s) -> P (mkV KStr (HPtr a)) (TStr s) [a]) ->
  (forall a vs ts A, cell_at h a (BArr vs) -> owns_list h vs ts A -> Q vs ts A -> P (mkV KArr (HPtr a)) (TArr ts) (a :: A)) ->
  (forall a ms mt A, cell_at h a (BObj ms) -> map fst ms = map fst mt -> NoDup (map fst ms) -> owns_list h (map snd ms) (map snd mt) A -> Q (map snd ms) (map snd mt) A -> P (mkV KObj (HPtr a)) (TObj mt) (a :: A)) ->
  Q [] [] [] -> (forall v t A vs ts B, owns h v t A -> P v t A -> owns_list h vs ts B -> Q vs ts B -> Q (v :: vs) (t :: ts) (A ++ B)) ->
  (forall v t A, owns h v t A -> P v t A) /\ (forall vs ts A, owns_list h vs ts A -> Q vs ts A).
Proof.
  intros. split.
  - intros v t A Ho. refine (owns_mind h (fun v t A _ => P v t A) (fun vs ts A _ => Q vs ts A) _ _ _ _ _ _ _ _ v t A Ho); eauto.
  - intros v t A Ho. refine (owns_list_mind h (fun v t A _ => P v t A) (fun vs ts A _ => Q vs ts A) _ _ _ _ _ _ _ _ v t A Ho); eauto.
Qed.

Lemma owns_frame h h' :
  (forall v t A, owns h v t A -> (forall a, In a A -> nth_error h' a = nth_error h a) -> owns h' v t A) /\
  (forall vs ts A, owns_list h vs ts A -> (forall a, In a A -> nth_error h' a = nth_error h a) -> owns_list h' vs ts A).
Proof.
  apply owns_ind2; intros; try (constructor; fail).
  - constructor. eapply cell_frame; [|eassumption]. apply H0. now left.
  - constructor. eapply cell_frame; [|eassumption]. apply H0. now left.
  - econstructor; [eapply cell_frame; [|eassumption]; apply H2; now left|]. apply H1. intros; apply H2; now right.
  - econstructor; [eapply cell_frame; [|eassumption]; apply H4; now left| | |]; auto. apply H3. intros; apply H4; now right.
  - constructor; [apply H0|apply H2]; intros; apply H3; apply in_or_app; auto.
Qed.
Lemma frame h h' v t A : owns h v t A -> (forall a, In a A -> nth_error h' a = nth_error h a) -> owns h' v t A.
Proof. apply owns_frame. Qed.
Lemma frame_list h h' v t A : owns_list h v t A -> (forall a, In a A -> nth_error h' a = nth_error h a) -> owns_list h' v t A.
Proof. apply owns_frame. Qed.

Lemma owns_lt h :
  (forall v t A, owns h v t A -> forall a, In a A -> a < length h) /\
  (forall vs ts A, owns_list h vs ts A -> forall a, In a A -> a < length h).
Proof.
  apply owns_ind2; cbn [In]; intros.
  - tauto.
  - tauto.
  - destruct H0 as [<-|[]]. eapply cell_lt; eauto.
  - destruct H0 as [<-|[]]. eapply cell_lt; eauto.
  - destruct H2 as [<-|]; [eapply cell_lt; eauto|auto].
  - destruct H4 as [<-|]; [eapply cell_lt; eauto|auto].
  - tauto.
  - apply in_app_or in H3 as []; auto.
Qed.
Lemma owns_grow h e v t A : owns h v t A -> owns (h ++ e) v t A.
Proof. intros H. apply (frame h); auto. intros a Ha. apply nth_error_app1. eapply (proj1 (owns_lt h)); eauto. Qed.
Lemma owns_list_grow h e v t A : owns_list h v t A -> owns_list (h ++ e) v t A.
Proof. intros H. apply (frame_list h); auto. intros a Ha. apply nth_error_app1. eapply (proj2 (owns_lt h)); eauto. Qed.
Lemma owns_kind h v t A : owns h v t A -> v_kind v = kind_of t.
Proof. destruct 1; reflexivity. Qed.
Lemma owns_list_length h vs ts A : owns_list h vs ts A -> length vs = length ts.
Proof. induction 1; cbn; congruence. Qed.

Lemma owns_list_app h vs1 ts1 A1 vs2 ts2 A2 : owns_list h vs1 ts1 A1 -> owns_list h vs2 ts2 A2 -> owns_list h (vs1 ++ vs2) (ts1 ++ ts2) (A1 ++ A2).
Proof. induction 1 as [|v t A vs ts B H1 H2 IH]; cbn [app]; auto. intros H. rewrite <- app_assoc. constructor; auto. Qed.
Lemma owns_list_split h vs ts1 ts2 A : owns_list h vs (ts1 ++ ts2) A -> exists vs1 vs2 A1 A2, vs = vs1 ++ vs2 /\ A = A1 ++ A2 /\ owns_list h vs1 ts1 A1 /\ owns_list h vs2 ts2 A2.
Proof.
  revert vs A. induction ts1 as [|t ts1 IH]; cbn [app]; intros vs A H.
  - exists [], vs, [], A. repeat split; auto. constructor.
  - inversion H as [|v ? A0 vs0 ? B Hv Hl]; subst. destruct (IH _ _ Hl) as (vs1 & vs2 & A1 & A2 & -> & -> & H1 & H2). exists (v :: vs1), vs2, (A0 ++ A1), A2.
    rewrite <- app_assoc. repeat split; auto. now constructor.
Qed.
Lemma owns_list_mid h vs ts1 t ts2 A : owns_list h vs (ts1 ++ t :: ts2) A ->
  exists vs1 v vs2 A1 A0 A2, vs = vs1 ++ v :: vs2 /\ A = A1 ++ A0 ++ A2 /\ owns_list h vs1 ts1 A1 /\ owns h v t A0 /\ owns_list h vs2 ts2 A2 /\ length vs1 = length ts1.
Proof.
  intros H. apply owns_list_split in H as (vs1 & vs2 & A1 & A2 & -> & -> & H1 & H2). inversion H2 as [|v ? A0 vs0 ? B Hv Hl]; subst.
  exists vs1, v, vs0, A1, A0, B. repeat split; auto. eapply owns_list_length; eauto.
Qed.

(** splitting a list of pairs along a split of its keys *)
Lemma map_split {A B} (f : A -> B) l r1 r2 : map f l = r1 ++ r2 -> exists l1 l2, l = l1 ++ l2 /\ map f l1 = r1 /\ map f l2 = r2.
Proof.
  revert l. induction r1 as [|x r1 IH]; cbn [app]; intros l H; [exists [], l; auto|]. destruct l as [|y l]; [discriminate|]. cbn in H. injection H as H1 H2.
  destruct (IH _ H2) as (l1 & l2 & -> & <- & <-). exists (y :: l1), l2. cbn. rewrite H1. auto.
Qed.

(** a node and one of its children; the child can be replaced *)
Lemma owns_child h v t A s tc : owns h v t A -> child s t = Found tc ->
  exists a b vc A1 Ac A2, v_hold v = HPtr a /\ cell_at h a b /\ slot b s = Some vc /\ owns h vc tc Ac /\ A = a :: A1 ++ Ac ++ A2 /\ enter h v s = Ret (a, s) /\
    forall h' vc' tc' Ac', cell_at h' a (set_slot b s vc') -> (forall x, In x (A1 ++ A2) -> nth_error h' x = nth_error h x) -> owns h' vc' tc' Ac' ->
      owns h' v (set_child s tc' t) (a :: A1 ++ Ac' ++ A2).
Proof.
  intros H Hc. destruct s as [n|k]; cbn [child] in Hc; destruct t as [| | | |ts|mt]; try discriminate.
  - destruct (nth_error ts n) as [c|] eqn:En; [|discriminate]. injection Hc as ->. apply nth_error_split in En as (ts1 & ts2 & -> & <-).
    inversion H as [| | | |a vs ? A0 Hcell Hl|]; subst. apply owns_list_mid in Hl as (vs1 & vc & vs2 & A1 & Ac & A2 & -> & -> & Hl1 & Hv & Hl2 & Hlen).
    exists a, (BArr (vs1 ++ vc :: vs2)), vc, A1, Ac, A2. cbn [v_hold slot]. rewrite <- Hlen, nth_mid. repeat (split; [now auto|]).
    split. { unfold enter. cbn [v_hold deref]. rewrite (cell_live _ _ _ Hcell). cbn [bind]. rewrite app_length. cbn [length]. destruct (Nat.ltb_spec (length vs1) (length vs1 + S (length vs2))); [reflexivity|lia]. }
    intros h' vc' tc' Ac' Hcell' Hf Hv'. cbn [set_slot set_child] in *. rewrite set_nth_split in Hcell'. rewrite Hlen, set_nth_split. econstructor; [exact Hcell'|].
    apply owns_list_app; [apply (frame_list h); auto; intros x Hx; apply Hf, in_or_app; auto|]. constructor; auto. apply (frame_list h); auto. intros x Hx. apply Hf, in_or_app. auto.
  - destruct (assoc k mt) as [c|] eqn:En; [|discriminate]. injection Hc as ->. apply assoc_split in En as (mt1 & mt2 & -> & Hk).
    inversion H as [| | | | |a ms ? A0 Hcell Hfst Hnd Hl]; subst. rewrite map_app in Hfst, Hl. cbn [map fst snd] in Hfst, Hl.
    apply map_split in Hfst as (ms1 & ms2' & -> & Hf1 & Hf2). destruct ms2' as [|[k' vc] ms2]; [discriminate|]. cbn [map fst] in Hf2. injection Hf2 as -> Hf2.
    rewrite map_app in Hl. cbn [map snd] in Hl. apply owns_list_mid in Hl as (vs1 & vc0 & vs2 & A1 & Ac & A2 & E & -> & Hl1 & Hv & Hl2 & Hlen).
    assert (L : length (map snd ms1) = length vs1). { rewrite Hlen, !map_length. apply (f_equal (@length _)) in Hf1. rewrite !map_length in Hf1. auto. }
    apply (f_equal (fun l => (firstn (length vs1) l, skipn (length vs1) l))) in E. rewrite !firstn_app, !skipn_app, L, !Nat.sub_diag, !firstn_O, !app_nil_r in E. cbn [skipn] in E.
    rewrite (firstn_all vs1), (skipn_all vs1), <- L, (firstn_all (map snd ms1)), (skipn_all (map snd ms1)) in E. cbn [app] in E. injection E as E1 E2 E3. subst vs1 vc0 vs2.
    assert (Hk' : ~ In k (map fst ms1)) by (rewrite Hf1; auto).
    exists a, (BObj (ms1 ++ (k, vc) :: ms2)), vc, A1, Ac, A2. cbn [v_hold slot]. split; [reflexivity|]. split; [assumption|]. split; [now apply assoc_mid|]. split; [assumption|]. split; [reflexivity|].
    split. { unfold enter. cbn [v_hold deref]. rewrite (cell_live _ _ _ Hcell). cbn [bind]. now rewrite assoc_mid. }
    intros h' vc' tc' Ac' Hcell' Hf Hv'. cbn [set_slot set_child] in *. rewrite assoc_set_mid in Hcell' by auto. rewrite assoc_set_mid by auto. econstructor; [exact Hcell'| | |].
    + rewrite !map_app. cbn [map fst]. rewrite Hf1, Hf2. reflexivity.
    + rewrite map_app in *. exact Hnd.
    + rewrite !map_app. cbn [map snd]. apply owns_list_app; [apply (frame_list h); auto; intros x Hx; apply Hf, in_or_app; auto|]. constructor; auto. apply (frame_list h); auto. intros x Hx. apply Hf, in_or_app. auto.
Qed.

(** what a value owns is determined *)
Lemma owns_det h :
  (forall v t A, owns h v t A -> forall t' A', owns h v t' A' -> t = t' /\ A = A') /\
  (forall vs ts A, owns_list h vs ts A -> forall ts' A', owns_list h vs ts' A' -> ts = ts' /\ A = A').
Proof.
  assert (Hc : forall a b b', cell_at h a b -> cell_at h a b' -> b = b'). { unfold cell_at. intros a b b' H1 H2. rewrite H1 in H2. destruct (a =? 0); congruence. }
  apply owns_ind2; intros.
  - inversion H; auto.
  - inversion H; auto.
  - inversion H0 as [| |? ? Hc2| | |]; subst. assert (E := Hc _ _ _ H Hc2). split; congruence.
  - inversion H0 as [| | |? ? Hc2| |]; subst. assert (E := Hc _ _ _ H Hc2). split; congruence.
  - inversion H2 as [| | | |? ? ? ? Hc2 Hl2|]; subst. assert (E := Hc _ _ _ H Hc2). injection E as <-. destruct (H1 _ _ Hl2). split; congruence.
  - inversion H4 as [| | | | |? ? mt' ? Hc2 Hf2 Hn2 Hl2]; subst. assert (E := Hc _ _ _ H Hc2). injection E as <-. destruct (H3 _ _ Hl2) as [E1 E2]. split; [|congruence]. f_equal.
    rewrite H0 in Hf2. clear - E1 Hf2. revert mt' E1 Hf2. induction mt as [|[k t] mt IH]; intros [|[k' t'] mt'] E1 Hf2; try discriminate; auto. cbn in *. injection E1 as -> E1. injection Hf2 as -> Hf2. f_equal. auto.
  - inversion H; auto.
  - inversion H3 as [|? ? ? ? ? ? Hv2 Hl2]; subst. destruct (H0 _ _ Hv2). destruct (H2 _ _ Hl2). split; congruence.
Qed.
Lemma owns_unique h v t A t' A' : owns h v t A -> owns h v t' A' -> t = t' /\ A = A'.
Proof. intros H1 H2. exact (proj1 (owns_det h) _ _ _ H1 _ _ H2). Qed.

(** two children share nothing *)
Lemma owns_list_two h vs ts A : owns_list h vs ts A -> forall n m v1 t1 A1 v2 t2 A2, n <> m ->
  nth_error vs n = Some v1 -> owns h v1 t1 A1 -> nth_error vs m = Some v2 -> owns h v2 t2 A2 -> forall x, cnt A1 x + cnt A2 x <= cnt A x.
Proof.
  assert (Hone : forall vs ts A, owns_list h vs ts A -> forall n v1 t1 A1, nth_error vs n = Some v1 -> owns h v1 t1 A1 -> forall x, cnt A1 x <= cnt A x).
  { induction 1 as [|v t A0 vs0 ts0 B Hv Hl IH]; intros n v1 t1 A1 E1 H1 x; destruct n as [|n]; cbn [nth_error] in E1; try discriminate; rewrite cnt_app.
    - injection E1 as <-. destruct (owns_unique _ _ _ _ _ _ Hv H1) as [_ <-]. lia.
    - specialize (IH _ _ _ _ E1 H1 x). lia. }
  induction 1 as [|v t A0 vs0 ts0 B Hv Hl IH]; intros n m v1 t1 A1 v2 t2 A2 Hn E1 H1 E2 H2 x; [destruct n; discriminate|]. rewrite cnt_app.
  destruct n as [|n], m as [|m]; cbn [nth_error] in *; try lia.
  - injection E1 as <-. destruct (owns_unique _ _ _ _ _ _ Hv H1) as [_ <-]. pose proof (Hone _ _ _ Hl _ _ _ _ E2 H2 x). lia.
  - injection E2 as <-. destruct (owns_unique _ _ _ _ _ _ Hv H2) as [_ <-]. pose proof (Hone _ _ _ Hl _ _ _ _ E1 H1 x). lia.
  - specialize (IH n m _ _ _ _ _ _ ltac:(lia) E1 H1 E2 H2 x). lia.
Qed.

Lemma assoc_nth {A} k (v : A) ms : assoc k ms = Some v -> exists n, nth_error (map snd ms) n = Some v /\ nth_error (map fst ms) n = Some k.
Proof. intros H. apply assoc_split in H as (m1 & m2 & -> & _). exists (length m1). rewrite !map_app. cbn [map snd fst]. rewrite <- (map_length snd m1) at 1. rewrite nth_mid. split; auto. rewrite <- (map_length fst m1). apply nth_mid. Qed.

Lemma owns_two h v t A s1 s2 a b v1 t1 A1 v2 t2 A2 : owns h v t A -> s1 <> s2 -> v_hold v = HPtr a -> cell_at h a b ->
  slot b s1 = Some v1 -> owns h v1 t1 A1 -> slot b s2 = Some v2 -> owns h v2 t2 A2 -> kind_of t = KArr \/ kind_of t = KObj -> forall x, cnt [a] x + cnt A1 x + cnt A2 x <= cnt A x.
Proof.
  intros H Hs Hp Hc S1 H1 S2 H2 Hk x.
  assert (Hce : forall b', cell_at h a b' -> b = b'). { unfold cell_at in *. intros b' E. rewrite E in Hc. destruct (a =? 0); congruence. }
  destruct H as [p|bb|a0 z Hcell|a0 z Hcell|a0 vs ts A Hcell Hl|a0 ms mt A Hcell Hf Hnd Hl]; cbn [kind_of] in Hk; try (destruct Hk; discriminate); cbn [v_hold] in Hp; injection Hp as ->; specialize (Hce _ Hcell); subst b; rewrite (cnt_cons _ A); destruct s1 as [n|k], s2 as [m|k']; cbn [slot] in S1, S2; try discriminate.
  - pose proof (owns_list_two _ _ _ _ Hl n m _ _ _ _ _ _ ltac:(congruence) S1 H1 S2 H2 x). lia.
  - apply assoc_nth in S1 as (n & S1 & K1). apply assoc_nth in S2 as (m & S2 & K2). assert (n <> m) by (intros ->; congruence).
    pose proof (owns_list_two _ _ _ _ Hl n m _ _ _ _ _ _ ltac:(congruence) S1 H1 S2 H2 x). lia.
Qed.

(** Places, copies and destruction under ownership. *)
From Verif Require Import Base ValueSpec ValueModel ValueProof.
From Coq Require Import List NArith ZArith Bool Lia Arith.
Import ListNotations.

Lemma set_slot_id b s v : slot b s = Some v -> set_slot b s v = b.
Proof.
  destruct b as [| |vs|ms], s as [n|k]; cbn [slot set_slot]; intros H; try discriminate.
  - now rewrite set_nth_id.
  - f_equal. apply assoc_split in H as (m1 & m2 & -> & Hk). now apply assoc_set_mid.
Qed.
Lemma slot_set b s v w : slot b s = Some v -> slot (set_slot b s w) s = Some w.
Proof.
  destruct b as [| |vs|ms], s as [n|k]; cbn [slot set_slot]; intros H; try discriminate.
  - apply set_nth_same. apply nth_error_Some. congruence.
  - apply assoc_split in H as (m1 & m2 & -> & Hk). rewrite assoc_set_mid by auto. now apply assoc_mid.
Qed.
Lemma set_slot_twice b s v w x : slot b s = Some v -> set_slot (set_slot b s w) s x = set_slot b s x.
Proof.
  destruct b as [| |vs|ms], s as [n|k]; cbn [slot set_slot]; intros H; try discriminate.
  - f_equal. apply nth_error_split in H as (l1 & l2 & -> & <-). now rewrite !set_nth_split.
  - f_equal. apply assoc_split in H as (m1 & m2 & -> & Hk). now rewrite !assoc_set_mid.
Qed.

Lemma load_ok h a b s v : cell_at h a b -> slot b s = Some v -> load h (a, s) = Ret v.
Proof. intros H E. unfold load. cbn [fst snd]. rewrite (cell_live _ _ _ H). cbn [bind]. now rewrite E. Qed.
Lemma store_ok h a b s v w : cell_at h a b -> slot b s = Some v -> store h (a, s) w = Ret (set_block h a (set_slot b s w)).
Proof. intros H E. unfold store. cbn [fst snd]. rewrite (cell_live _ _ _ H). cbn [bind]. now rewrite E. Qed.

Definition walk (h : heap) (v : val) (s : step) (p : list step) : outcome loc := l <- enter h v s ;; locate h l p.
Lemma walk_cons h v s p : forall l, walk h v s p = Ret l -> forall s', walk h v s (p ++ [s']) = (w <- load h l ;; enter h w s').
Proof.
  unfold walk. intros l H s'. destruct (enter h v s) as [l0| | | |]; try discriminate. cbn [bind] in *. revert l0 H. induction p as [|s1 p IH]; intros l0 H; cbn [locate app] in *.
  - injection H as ->. destruct (load h l) as [w| | | |]; cbn [bind]; auto. destruct (enter h w s') as [l1| | | |]; reflexivity.
  - destruct (load h l0) as [w| | | |]; try discriminate. cbn [bind] in *. destruct (enter h w s1) as [l1| | | |]; try discriminate. cbn [bind] in *. auto.
Qed.

Lemma focus p : forall s h v t A t0, owns h v t A -> (forall x, cnt A x <= 1) -> tget (s :: p) t = Found t0 ->
  exists a sl b v0 A0 Ar, walk h v s p = Ret (a, sl) /\ cell_at h a b /\ slot b sl = Some v0 /\ owns h v0 t0 A0 /\
    (forall x, cnt A x = cnt A0 x + cnt Ar x) /\ 0 < cnt Ar a /\
    forall h' v0' t0' A0', cell_at h' a (set_slot b sl v0') -> (forall x, x <> a -> 0 < cnt Ar x -> nth_error h' x = nth_error h x) -> owns h' v0' t0' A0' ->
      exists A', owns h' v (tset (s :: p) t0' t) A' /\ forall x, cnt A' x = cnt A0' x + cnt Ar x.
Proof.
  induction p as [|s' p IH]; intros s h v t A t0 H Hn Hg; cbn [tget] in Hg; destruct (child s t) as [tc| |] eqn:Ec; try discriminate.
  - injection Hg as ->. destruct (owns_child _ _ _ _ _ _ H Ec) as (a & b & vc & A1 & Ac & A2 & Hp & Hc & Hs & Ho & -> & He & Hr).
    exists a, s, b, vc, Ac, (a :: A1 ++ A2). unfold walk. rewrite He. cbn [bind locate]. split; auto. split; auto. split; auto. split; auto.
    split. { intros x. rewrite (cnt_cons a (A1 ++ Ac ++ A2)), (cnt_cons a (A1 ++ A2)), !cnt_app. lia. }
    split. { rewrite (cnt_cons a (A1 ++ A2)), cnt_one. lia. }
    intros h' v0' t0' A0' Hc' Hf Ho'. exists (a :: A1 ++ A0' ++ A2). cbn [tset]. rewrite Ec. split.
    + apply (Hr h' v0'); auto. intros x Hx. apply Hf.
      * intros ->. specialize (Hn a). rewrite (cnt_cons a (A1 ++ Ac ++ A2)), cnt_one, !cnt_app in Hn. apply cnt_in in Hx. rewrite cnt_app in Hx. lia.
      * apply cnt_in. now right.
    + intros x. rewrite (cnt_cons a (A1 ++ A0' ++ A2)), (cnt_cons a (A1 ++ A2)), !cnt_app. lia.
  - destruct (owns_child _ _ _ _ _ _ H Ec) as (a1 & b1 & vc & A1 & Ac & A2 & Hp & Hc & Hs & Ho & -> & He & Hr).
    assert (Hn' : forall x, cnt (a1 :: A1 ++ Ac ++ A2) x = cnt [a1] x + cnt A1 x + cnt Ac x + cnt A2 x). { intros x. rewrite (cnt_cons a1 (A1 ++ Ac ++ A2)), !cnt_app. lia. }
    destruct (IH s' h vc tc Ac t0 Ho) as (a & sl & b & v0 & A0 & Ar & Hw & Hc0 & Hs0 & Ho0 & Hcnt & Ha & Hr0). { intros x. specialize (Hn x). rewrite Hn' in Hn. lia. } { exact Hg. }
    exists a, sl, b, v0, A0, (a1 :: A1 ++ A2 ++ Ar). split. { unfold walk. rewrite He. cbn [bind locate]. rewrite (load_ok _ _ _ _ _ Hc Hs). exact Hw. }
    split; auto. split; auto. split; auto. split. { intros x. rewrite Hn', (cnt_cons a1 (A1 ++ A2 ++ Ar)), !cnt_app, Hcnt. lia. }
    split. { rewrite (cnt_cons a1 (A1 ++ A2 ++ Ar)), !cnt_app. lia. }
    assert (Hne : forall y, cnt [a1] y + cnt A1 y + cnt A2 y > 0 -> y <> a). { intros y Hy ->. specialize (Hn a). rewrite Hn', Hcnt in Hn. lia. }
    intros h' v0' t0' A0' Hc' Hf Ho'. destruct (Hr0 h' v0' t0' A0' Hc') as (Ac' & Hoc & Hcc); auto. { intros x Hx Hi. apply Hf; auto. rewrite (cnt_cons a1 (A1 ++ A2 ++ Ar)), !cnt_app. lia. }
    exists (a1 :: A1 ++ Ac' ++ A2). change (tset (s :: s' :: p) t0' t) with (match child s t with Found c => set_child s (tset (s' :: p) t0' c) t | _ => t end). rewrite Ec. split.
    + apply (Hr h' vc (tset (s' :: p) t0' tc) Ac'); auto.
      * rewrite set_slot_id by auto. eapply cell_frame; [|exact Hc]. apply Hf; [apply Hne; rewrite cnt_one; lia|]. rewrite (cnt_cons a1 (A1 ++ A2 ++ Ar)), cnt_one. lia.
      * intros x Hx. apply cnt_in in Hx. rewrite cnt_app in Hx. apply Hf; [apply Hne; lia|]. rewrite (cnt_cons a1 (A1 ++ A2 ++ Ar)), !cnt_app. lia.
    + intros x. rewrite (cnt_cons a1 (A1 ++ Ac' ++ A2)), (cnt_cons a1 (A1 ++ A2 ++ Ar)), !cnt_app, Hcc. lia.
Qed.

Lemma walk_sub p s h v t A t0 a sl vq tq Aq : owns h v t A -> (forall x, cnt A x <= 1) -> tget (s :: p) t = Found t0 -> walk h v s p = Ret (a, sl) ->
  load h (a, sl) = Ret vq -> owns h vq tq Aq -> tq = t0 /\ forall x, cnt Aq x <= cnt A x.
Proof.
  intros H Hn Hg Hw Hl Ho. destruct (focus p s h v t A t0 H Hn Hg) as (a' & sl' & b & v0 & A0 & Ar & Hw' & Hc & Hs & Ho0 & Hcnt & _).
  rewrite Hw in Hw'. injection Hw' as <- <-. rewrite (load_ok _ _ _ _ _ Hc Hs) in Hl. injection Hl as ->. destruct (owns_unique _ _ _ _ _ _ Ho Ho0) as [-> ->]. split; auto. intros x. rewrite Hcnt. lia.
Qed.

Lemma step_eqb_spec a b : reflect (a = b) (step_eqb a b).
Proof.
  destruct a as [n|k], b as [m|j]; cbn [step_eqb]; try (constructor; congruence).
  - destruct (Nat.eqb_spec n m); constructor; congruence.
  - destruct (bytes_eqb_spec k j); constructor; congruence.
Qed.
Lemma prefix_refl p : prefix p p = true.
Proof. induction p as [|s p IH]; cbn [prefix]; auto. rewrite IH. destruct (step_eqb_spec s s); [reflexivity|congruence]. Qed.

(** the storage of a place is not part of a value that does not contain the place *)
Lemma apart p : forall s q s2 h v t A t0 tq a sl aq sq vq Aq, owns h v t A -> (forall x, cnt A x <= 1) ->
  tget (s :: p) t = Found t0 -> walk h v s p = Ret (a, sl) -> tget (s2 :: q) t = Found tq -> walk h v s2 q = Ret (aq, sq) ->
  load h (aq, sq) = Ret vq -> owns h vq tq Aq -> (prefix (s2 :: q) (s :: p) = true -> s2 :: q = s :: p) -> cnt Aq a = 0.
Proof.
  induction p as [|s' p IH]; intros s q s2 h v t A t0 tq a sl aq sq vq Aq H Hn Hg Hw Hgq Hwq Hl Ho Hpre.
  - cbn [tget] in Hg. destruct (child s t) as [tc| |] eqn:Ec; try discriminate. destruct (owns_child _ _ _ _ _ _ H Ec) as (a1 & b1 & vc & A1 & Ac & A2 & Hp & Hc & Hs & Hoc & HA & He & _).
    unfold walk in Hw. rewrite He in Hw. cbn [bind locate] in Hw. injection Hw as <- <-.
    cbn [tget] in Hgq. destruct (child s2 t) as [tc2| |] eqn:Ec2; try discriminate. destruct (owns_child _ _ _ _ _ _ H Ec2) as (a2 & b2 & vc2 & B1 & Bc & B2 & Hp2 & Hc2 & Hs2 & Hoc2 & HB & He2 & _).
    rewrite Hp in Hp2. injection Hp2 as <-. assert (Hbc : cnt Bc a1 = 0). { specialize (Hn a1). rewrite HB, (cnt_cons a1 (B1 ++ Bc ++ B2)), cnt_one, !cnt_app in Hn. lia. }
    assert (Hnb : forall x, cnt Bc x <= 1). { intros x. specialize (Hn x). rewrite HB, (cnt_cons a1 (B1 ++ Bc ++ B2)), !cnt_app in Hn. lia. }
    destruct q as [|s2' q].
    + unfold walk in Hwq. rewrite He2 in Hwq. cbn [bind locate] in Hwq. injection Hwq as <- <-. rewrite (load_ok _ _ _ _ _ Hc2 Hs2) in Hl. injection Hl as ->. destruct (owns_unique _ _ _ _ _ _ Ho Hoc2) as [_ ->]. auto.
    + unfold walk in Hwq. rewrite He2 in Hwq. cbn [bind locate] in Hwq. rewrite (load_ok _ _ _ _ _ Hc2 Hs2) in Hwq. cbn [bind] in Hwq. fold (walk h vc2 s2' q) in Hwq.
      destruct (walk_sub q s2' h vc2 tc2 Bc tq aq sq vq tq Aq Hoc2 Hnb Hgq Hwq Hl Ho) as [_ Hsub]. specialize (Hsub a1). lia.
  - change (tget (s :: s' :: p) t) with (match child s t with Found c => tget (s' :: p) c | r => r end) in Hg. destruct (child s t) as [tc| |] eqn:Ec; try discriminate.
    destruct (owns_child _ _ _ _ _ _ H Ec) as (a1 & b1 & vc & A1 & Ac & A2 & Hp & Hc & Hs & Hoc & HA & He & _).
    assert (Hna : forall x, cnt Ac x <= 1). { intros x. specialize (Hn x). rewrite HA, (cnt_cons a1 (A1 ++ Ac ++ A2)), !cnt_app in Hn. lia. }
    unfold walk in Hw. rewrite He in Hw. cbn [bind locate] in Hw. rewrite (load_ok _ _ _ _ _ Hc Hs) in Hw. cbn [bind] in Hw. fold (walk h vc s' p) in Hw.
    destruct (focus p s' h vc tc Ac t0 Hoc Hna Hg) as (a' & sl' & b & v0 & A0 & Ar & Hw' & Hc0 & Hs0 & Ho0 & Hcnt & Har & _). rewrite Hw in Hw'. injection Hw' as <- <-.
    cbn [tget] in Hgq. destruct (child s2 t) as [tc2| |] eqn:Ec2; try discriminate. destruct (owns_child _ _ _ _ _ _ H Ec2) as (a2 & b2 & vc2 & B1 & Bc & B2 & Hp2 & Hc2 & Hs2 & Hoc2 & HB & He2 & _).
    rewrite Hp in Hp2. injection Hp2 as <-. assert (Hnb : forall x, cnt Bc x <= 1). { intros x. specialize (Hn x). rewrite HB, (cnt_cons a1 (B1 ++ Bc ++ B2)), !cnt_app in Hn. lia. }
    assert (b2 = b1). { unfold cell_at in Hc, Hc2. rewrite Hc in Hc2. destruct (a1 =? 0); congruence. } subst b2.
    destruct (step_eqb_spec s2 s) as [->|Hd].
    + rewrite Hs in Hs2. injection Hs2 as <-. rewrite Ec in Ec2. injection Ec2 as <-. destruct q as [|s2' q].
      { assert (E : [s] = s :: s' :: p); [|discriminate E]. apply Hpre. cbn [prefix]. destruct (step_eqb_spec s s); [reflexivity|congruence]. }
      unfold walk in Hwq. rewrite He2 in Hwq. cbn [bind locate] in Hwq. rewrite (load_ok _ _ _ _ _ Hc Hs) in Hwq. cbn [bind] in Hwq. fold (walk h vc s2' q) in Hwq.
      apply (IH s' q s2' h vc tc Ac t0 tq a sl aq sq vq Aq); auto. intros Hpre'. assert (E : s :: s2' :: q = s :: s' :: p); [|congruence]. apply Hpre.
      change (prefix (s :: s2' :: q) (s :: s' :: p)) with (step_eqb s s && prefix (s2' :: q) (s' :: p)). rewrite Hpre'. destruct (step_eqb_spec s s); [reflexivity|congruence].
    + assert (Hk : kind_of t = KArr \/ kind_of t = KObj). { destruct s, t; cbn in Ec; try discriminate; cbn; auto. }
      pose proof (owns_two _ _ _ _ s s2 a1 b1 vc tc Ac vc2 tc2 Bc H ltac:(congruence) Hp Hc Hs Hoc Hs2 Hoc2 Hk a) as H2. specialize (Hn a). specialize (Hcnt a).
      destruct q as [|s2' q].
      * unfold walk in Hwq. rewrite He2 in Hwq. cbn [bind locate] in Hwq. injection Hwq as <- <-. rewrite (load_ok _ _ _ _ _ Hc Hs2) in Hl. injection Hl as ->. destruct (owns_unique _ _ _ _ _ _ Ho Hoc2) as [_ ->]. lia.
      * unfold walk in Hwq. rewrite He2 in Hwq. cbn [bind locate] in Hwq. rewrite (load_ok _ _ _ _ _ Hc Hs2) in Hwq. cbn [bind] in Hwq. fold (walk h vc2 s2' q) in Hwq.
        destruct (walk_sub q s2' h vc2 tc2 Bc tq aq sq vq tq Aq Hoc2 Hnb Hgq Hwq Hl Ho) as [_ Hsub]. specialize (Hsub a). lia.
Qed.

(** ** Copies *)
Lemma copy_ok fuel : forall h v t A, 0 < length h -> owns h v t A -> length A < fuel ->
  exists e o A', copy fuel h v = Ret (h ++ e, o) /\ (forall old, owns (h ++ e) (mkV (v_kind v) (held o old)) t A') /\ (forall x, cnt A' x <= 1) /\ (forall x, 0 < cnt A' x -> length h <= x).
Proof.
  induction fuel as [|f IH]; intros h v t A Hh Ho Hf; [lia|].
  assert (HL : forall vs ts A h0, 0 < length h0 -> owns_list h0 vs ts A -> length A < f ->
    exists e vs' A', copy_list (copy f) h0 vs = Ret (h0 ++ e, vs') /\ owns_list (h0 ++ e) vs' ts A' /\ (forall x, cnt A' x <= 1) /\ (forall x, 0 < cnt A' x -> length h0 <= x)).
  { induction vs as [|v1 vs IHl]; intros ts B h0 Hh0 Hl Hlt; inversion Hl as [|? t1 A1 ? ts1 B1 Hv Hl1]; subst.
    - exists [], [], []. rewrite app_nil_r. cbn [copy_list]. split; auto. split; [constructor|]. split; intros x; rewrite cnt_nil; lia.
    - rewrite app_length in Hlt. destruct (IH h0 v1 t1 A1 Hh0 Hv ltac:(lia)) as (e1 & o & A1' & E1 & Ho1 & Hn1 & Hg1).
      destruct (IHl ts1 B1 (h0 ++ e1)) as (e2 & vs2 & A2' & E2 & Ho2 & Hn2 & Hg2). { rewrite app_length. lia. } { now apply owns_list_grow. } { lia. }
      exists (e1 ++ e2), (mkV (v_kind v1) (held o HNull) :: vs2), (A1' ++ A2'). cbn [copy_list]. rewrite E1. cbn [bind]. rewrite E2. cbn [bind]. rewrite <- app_assoc in *. split; auto.
      split. { constructor; auto. rewrite app_assoc. apply owns_grow. apply Ho1. }
      assert (Hb : forall x, 0 < cnt A1' x -> x < length (h0 ++ e1)). { intros x Hx. eapply (proj1 (owns_lt (h0 ++ e1))); [apply (Ho1 HNull)|]. now apply cnt_in. }
      split; intros x; rewrite cnt_app.
      + specialize (Hn1 x). specialize (Hn2 x). specialize (Hg2 x). specialize (Hb x). lia.
      + specialize (Hg1 x). specialize (Hg2 x). rewrite app_length in Hg2. lia. }
  assert (Hnew : forall (h1 : heap) b, 0 < length h1 -> cell_at (h1 ++ [Heap b]) (length h1) b).
  { intros h1 b H1. unfold cell_at. rewrite nth_mid. destruct (Nat.eqb_spec (length h1) 0); [lia|reflexivity]. }
  destruct Ho as [p|b|a z Hc|a s Hc|a vs ts A Hc Hl|a ms mt A Hc Hfst Hnd Hl]; cbn [copy v_kind v_hold deref].
  - exists [], None, []. rewrite app_nil_r. split; auto. split; [constructor|]. split; intros x; rewrite cnt_nil; lia.
  - exists [], (Some (HBool b)), []. rewrite app_nil_r. split; auto. split; [constructor|]. split; intros x; rewrite cnt_nil; lia.
  - rewrite (cell_live _ _ _ Hc). cbn [bind]. exists [Heap (BInt z)], (Some (HPtr (length h))), [length h]. split; auto. split; [constructor; now apply Hnew|].
    split; intros x; destruct (Nat.eq_dec (length h) x) as [<-|Hx]; rewrite ?cnt_one, ?(cnt_other _ _ Hx); lia.
  - rewrite (cell_live _ _ _ Hc). cbn [bind]. exists [Heap (BStr s)], (Some (HPtr (length h))), [length h]. split; auto. split; [constructor; now apply Hnew|].
    split; intros x; destruct (Nat.eq_dec (length h) x) as [<-|Hx]; rewrite ?cnt_one, ?(cnt_other _ _ Hx); lia.
  - cbn [length] in Hf. rewrite (cell_live _ _ _ Hc). cbn [bind]. destruct (HL vs ts A h Hh Hl ltac:(lia)) as (e & vs' & A' & E & Ho & Hn & Hg). rewrite E. cbn [bind].
    exists (e ++ [Heap (BArr vs')]), (Some (HPtr (length (h ++ e)))), (length (h ++ e) :: A'). rewrite app_assoc. split; auto.
    split. { intros old. cbn [held]. econstructor; [apply Hnew; rewrite app_length; lia|]. now apply owns_list_grow. }
    assert (Hb : forall x, 0 < cnt A' x -> x < length (h ++ e)). { intros x Hx. eapply (proj2 (owns_lt (h ++ e))); [exact Ho|]. now apply cnt_in. }
    split; intros x; rewrite (cnt_cons _ A'); specialize (Hb x); specialize (Hn x); specialize (Hg x); destruct (Nat.eq_dec (length (h ++ e)) x) as [<-|Hx]; rewrite ?cnt_one, ?(cnt_other _ _ Hx); try rewrite app_length in *; lia.
  - cbn [length] in Hf. rewrite (cell_live _ _ _ Hc). cbn [bind]. destruct (HL (map snd ms) (map snd mt) A h Hh Hl ltac:(lia)) as (e & vs' & A' & E & Ho & Hn & Hg). rewrite E. cbn [bind].
    exists (e ++ [Heap (BObj (combine (map fst ms) vs'))]), (Some (HPtr (length (h ++ e)))), (length (h ++ e) :: A'). rewrite app_assoc. split; auto.
    assert (Hlen : length (map fst ms) = length vs'). { rewrite (owns_list_length _ _ _ _ Ho), <- (owns_list_length _ _ _ _ Hl), !map_length. auto. }
    assert (Hfs : forall X Y (l1 : list X) (l2 : list Y), length l1 = length l2 -> map fst (combine l1 l2) = l1 /\ map snd (combine l1 l2) = l2).
    { clear. intros X Y. induction l1 as [|x l1 IH]; intros [|y l2] H; try discriminate; auto. cbn in *. injection H as H. destruct (IH _ H) as [-> ->]. auto. }
    destruct (Hfs _ _ _ _ Hlen) as [F1 F2].
    split. { intros old. cbn [held]. econstructor; [apply Hnew; rewrite app_length; lia|congruence|congruence|]. rewrite F2. now apply owns_list_grow. }
    assert (Hb : forall x, 0 < cnt A' x -> x < length (h ++ e)). { intros x Hx. eapply (proj2 (owns_lt (h ++ e))); [exact Ho|]. now apply cnt_in. }
    split; intros x; rewrite (cnt_cons _ A'); specialize (Hb x); specialize (Hn x); specialize (Hg x); destruct (Nat.eq_dec (length (h ++ e)) x) as [<-|Hx]; rewrite ?cnt_one, ?(cnt_other _ _ Hx); try rewrite app_length in *; lia.
Qed.

(** the memory is large enough as fuel *)
Lemma owned_fits h v t A : owns h v t A -> (forall x, cnt A x <= 1) -> length A <= length h.
Proof.
  intros H Hn. apply cnt_nodup in Hn. rewrite <- (seq_length (length h) 0). apply NoDup_incl_length; auto. intros a Ha. apply in_seq. pose proof (proj1 (owns_lt h) _ _ _ H a Ha). lia.
Qed.

(** ** Destruction *)
Lemma destroy_ok fuel : forall h v t A, owns h v t A -> cnt A 0 = 0 -> (forall x, cnt A x <= 1) -> length A < fuel ->
  exists h', destroy fuel h v = Ret h' /\ length h' = length h /\ forall x, cnt A x = 0 -> nth_error h' x = nth_error h x.
Proof.
  induction fuel as [|f IH]; intros h v t A Ho H0 Hn Hf; [lia|].
  assert (HL : forall vs ts A h0, owns_list h0 vs ts A -> cnt A 0 = 0 -> (forall x, cnt A x <= 1) -> length A < f ->
    exists h', destroy_list (destroy f) h0 vs = Ret h' /\ length h' = length h0 /\ forall x, cnt A x = 0 -> nth_error h' x = nth_error h0 x).
  { induction vs as [|v1 vs IHl]; intros ts B h0 Hl HB0 HBn HBf; inversion Hl as [|? t1 A1 ? ts1 B1 Hv Hl1]; subst.
    - exists h0. auto.
    - rewrite app_length in HBf. rewrite cnt_app in HB0. assert (Hn1 : forall x, cnt A1 x + cnt B1 x <= 1) by (intros x; specialize (HBn x); rewrite cnt_app in HBn; lia).
      destruct (IH h0 v1 t1 A1 Hv ltac:(lia)) as (h1 & E1 & L1 & F1). { intros x. specialize (Hn1 x). lia. } { lia. }
      destruct (IHl ts1 B1 h1) as (h2 & E2 & L2 & F2). { apply (frame_list h0); auto. intros a Ha. apply F1. apply cnt_in in Ha. specialize (Hn1 a). lia. } { lia. } { intros x. specialize (Hn1 x). lia. } { lia. }
      exists h2. cbn [destroy_list]. rewrite E1. cbn [bind]. split; auto. split; [congruence|]. intros x Hx. rewrite cnt_app in Hx. rewrite F2, F1; auto; lia. }
  assert (Hrel : forall (h1 : heap) a b, a <> 0 -> cell_at h1 a b -> release h1 a = Ret (set_nth a Dead h1)).
  { intros h1 a b Ha Hc. unfold release, cell_at in *. rewrite Hc. destruct (Nat.eqb_spec a 0); [lia|reflexivity]. }
  destruct Ho as [p|b|a z Hc|a s Hc|a vs ts A Hc Hl|a ms mt A Hc Hfst Hnd Hl]; cbn [destroy v_kind v_hold deref].
  - exists h. auto.
  - exists h. auto.
  - exists h. auto.
  - assert (a <> 0) by (intros ->; rewrite cnt_one in H0; lia). rewrite (cell_live _ _ _ Hc). cbn [bind]. rewrite (Hrel _ _ _ H Hc). eexists. split; [reflexivity|]. split; [apply set_nth_length|].
    intros x Hx. apply set_nth_other. intros ->. rewrite cnt_one in Hx. lia.
  - rewrite (cnt_cons _ A) in H0. assert (a <> 0) by (intros ->; rewrite cnt_one in H0; lia). rewrite (cell_live _ _ _ Hc). cbn [bind]. rewrite (Hrel _ _ _ H Hc). eexists. split; [reflexivity|]. split; [apply set_nth_length|].
    intros x Hx. apply set_nth_other. intros ->. rewrite (cnt_cons _ A), cnt_one in Hx. lia.
  - cbn [length] in Hf. assert (Hn1 : forall x, cnt [a] x + cnt A x <= 1) by (intros x; specialize (Hn x); rewrite (cnt_cons _ A) in Hn; lia).
    rewrite (cnt_cons _ A) in H0. assert (a <> 0) by (intros ->; rewrite cnt_one in H0; lia). rewrite (cell_live _ _ _ Hc). cbn [bind].
    destruct (HL _ _ _ h Hl ltac:(lia)) as (h1 & E1 & L1 & F1). { intros x. specialize (Hn1 x). lia. } { lia. } rewrite E1. cbn [bind].
    assert (Hc1 : cell_at h1 a (BObj ms)). { eapply cell_frame; [|exact Hc]. apply F1. specialize (Hn1 a). rewrite cnt_one in Hn1. lia. }
    rewrite (Hrel _ _ _ H Hc1). eexists. split; [reflexivity|]. split; [rewrite set_nth_length; auto|]. intros x Hx. rewrite (cnt_cons _ A) in Hx. rewrite set_nth_other, F1; auto; [lia|].
    intros ->. rewrite cnt_one in Hx. lia.
Qed.

(** ** Reading *)
Lemma read_ok fuel : forall h v t A, owns h v t A -> length A < fuel -> read fuel h v = Ret t.
Proof.
  induction fuel as [|f IH]; intros h v t A Ho Hf; [lia|].
  assert (HL : forall vs ts A, owns_list h vs ts A -> length A < f -> read_list (read f h) vs = Ret ts).
  { induction 1 as [|v1 t1 A1 vs1 ts1 B1 Hv Hl IHl]; intros Hlt; cbn [read_list]; auto. rewrite app_length in Hlt. rewrite (IH _ _ _ _ Hv) by lia. cbn [bind]. rewrite IHl by lia. reflexivity. }
  destruct Ho as [p|b|a z Hc|a s Hc|a vs ts A Hc Hl|a ms mt A Hc Hfst Hnd Hl]; cbn [read v_kind v_hold deref]; auto; rewrite (cell_live _ _ _ Hc); cbn [bind]; auto; cbn [length] in Hf.
  - rewrite (HL _ _ _ Hl) by lia. reflexivity.
  - rewrite (HL _ _ _ Hl) by lia. cbn [bind]. do 2 f_equal. rewrite Hfst. clear. induction mt as [|[k t] mt IH]; cbn; congruence.
Qed.

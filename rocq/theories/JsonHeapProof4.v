(** What the callbacks mean for a whole text. *)
From Verif Require Import Base JsonModel JsonSpec JsonProof2 ValueSpec ValueModel ValueProof ValueProof7 ValueProof8 JsonHeapSpec JsonHeapModel JsonHeapProof2 JsonHeapProof3.
From Coq Require Import List NArith ZArith Bool Lia Arith.
Import ListNotations.

Lemma tplay_app es1 : forall es2 st, tplay (es1 ++ es2) st = match tplay es1 st with Some st' => tplay es2 st' | None => None end.
Proof. induction es1 as [|e es1 IH]; intros es2 st; cbn [app tplay]; [reflexivity|]. destruct (tfire e st); auto. Qed.
Lemma cost_app es1 : forall es2 st st', tplay es1 st = Some st' -> tplay_cost (es1 ++ es2) st = tplay_cost es1 st + tplay_cost es2 st'.
Proof.
  induction es1 as [|e es1 IH]; intros es2 st st' H; cbn [app tplay tplay_cost] in *; [injection H as <-; reflexivity|]. destruct (tfire e st); [|discriminate]. rewrite (IH _ _ _ H). lia.
Qed.

Definition dmem (m : bytes * ast) : bytes * tree := (fst m, denote (snd m)).
Lemma tparent_top u root k t stk : exists t', tparent u (root, (k, t) :: stk) = (root, (k, t') :: stk).
Proof. eexists. reflexivity. Qed.

(** the value of the text arrives at the parent *)
Lemma play_events a : forall st, tplay (events a) st = Some (tparent (denote a) st).
Proof.
  induction a as [z|b|s|l IH|ms IH] using ast_ind2; intros st; cbn [events tplay tfire denote]; try reflexivity.
  - rewrite tplay_app. assert (HE : forall l0, tplay (flat_map events l) (fst st, ([], TArr l0) :: snd st) = Some (fst st, ([], TArr (l0 ++ map denote l)) :: snd st)).
    { induction IH as [|x l Hx _ IHl]; intros l0; cbn [flat_map map tplay]; [now rewrite app_nil_r|]. rewrite tplay_app, Hx. cbn [tparent snd fst]. rewrite IHl, <- app_assoc. reflexivity. }
    rewrite HE. cbn [tplay tfire snd fst app]. destruct st as [root [|]]; reflexivity.
  - rewrite tplay_app. match goal with |- context [flat_map ?F ms] => change (flat_map F ms) with (flat_map member_events ms) end.
    assert (HE : forall k0 m0, exists k1, tplay (flat_map member_events ms) (fst st, (k0, TObj m0) :: snd st) = Some (fst st, (k1, TObj (enter_all (map dmem ms) m0)) :: snd st)).
    { induction IH as [|m ms Hm _ IHl]; intros k0 m0; cbn [flat_map map tplay enter_all]; [now exists k0|]. rewrite tplay_app. unfold member_events at 1. cbn [tplay tfire snd fst]. rewrite Hm. cbn [tparent snd fst dmem]. apply IHl. }
    destruct (HE [] []) as (k1 & ->). cbn [tplay tfire snd fst]. destruct st as [root [|]]; reflexivity.
Qed.

(** ** Until the last callback the root is left alone *)
Lemma keep_list {A} (ev_of : A -> list ev) : forall l, (forall x, In x l -> forall es rest root stk st', ev_of x = es ++ rest -> stk <> [] -> tplay es (root, stk) = Some st' -> fst st' = root /\ snd st' <> []) ->
  forall es rest root stk st', flat_map ev_of l = es ++ rest -> stk <> [] -> tplay es (root, stk) = Some st' -> fst st' = root /\ snd st' <> [].
Proof.
  induction l as [|x l IH]; intros H es rest root stk st' E Hs Hp; cbn [flat_map] in E.
  - symmetry in E. apply app_eq_nil in E as [-> _]. injection Hp as <-. auto.
  - apply app_eq_app in E as (q & [[Ex E]|[-> E]]).
    + eapply (H x (or_introl eq_refl) es q); eauto.
    + rewrite tplay_app in Hp. destruct (tplay (ev_of x) (root, stk)) as [[root1 stk1]|] eqn:E1; [|discriminate]. destruct (H x (or_introl eq_refl) (ev_of x) [] root stk _ ltac:(now rewrite app_nil_r) Hs E1) as [H1 H2]. cbn [fst snd] in *. subst root1.
      apply (IH ltac:(intros y Hy; apply H; now right) q rest root stk1 st'); auto.
Qed.
Lemma snoc_split {A} (l : list A) x es rest : l ++ [x] = es ++ rest -> rest <> [] -> exists r, rest = r ++ [x] /\ l = es ++ r.
Proof.
  intros E Hn. destruct (exists_last Hn) as (r & y & ->). rewrite app_assoc in E. apply app_inj_tail in E as [-> ->]. eauto.
Qed.
Lemma keep_root a : forall es rest root stk st', events a = es ++ rest -> stk <> [] -> tplay es (root, stk) = Some st' -> fst st' = root /\ snd st' <> [].
Proof.
  assert (Hfull : forall a root stk st', stk <> [] -> tplay (events a) (root, stk) = Some st' -> fst st' = root /\ snd st' <> []).
  { intros a' root [|[k t] stk] st' Hs Hp; [congruence|]. rewrite play_events in Hp. injection Hp as <-. cbn. split; congruence. }
  assert (Hnil : forall root stk st', stk <> [] -> tplay [] (root, stk) = Some st' -> fst st' = root /\ snd st' <> []) by (intros root stk st' Hs Hp; injection Hp as <-; auto).
  induction a as [z|b|s|l IH|ms IH] using ast_ind2; intros es rest root stk st' E Hs Hp; (destruct rest as [|e0 rest]; [rewrite app_nil_r in E; rewrite <- E in Hp; eapply Hfull; eauto|]); (destruct es as [|e es]; [eapply Hnil; eauto|]); cbn [events app] in E.
  - injection E as _ E. destruct es; discriminate.
  - injection E as _ E. destruct es; discriminate.
  - injection E as _ E. destruct es; discriminate.
  - injection E as <- E. apply snoc_split in E as (q & _ & E); [|discriminate]. cbn [tplay tfire fst snd] in Hp. eapply (keep_list events l); [|exact E| |exact Hp]; [|discriminate].
    intros x Hx. rewrite Forall_forall in IH. now apply IH.
  - injection E as <- E. apply snoc_split in E as (q & _ & E); [|discriminate]. cbn [tplay tfire fst snd] in Hp. eapply (keep_list member_events ms); [|exact E| |exact Hp]; [|discriminate].
    intros m Hm es1 r1 root1 stk1 st1 E1 Hs1 Hp1. rewrite Forall_forall in IH. destruct es1 as [|e1 es1]; [eapply Hnil; eauto|]. injection E1 as <- E1. cbn [tplay tfire snd fst] in Hp1. destruct stk1 as [|[k1 t1] stk1]; [congruence|].
    eapply (IH m Hm es1 r1); [exact E1| |exact Hp1]. discriminate.
Qed.
Lemma prefix_root a es rest st' : events a = es ++ rest -> rest <> [] -> tplay es (TUndef, []) = Some st' -> fst st' = TUndef.
Proof.
  intros E Hn Hp. destruct es as [|e es]; [injection Hp as <-; reflexivity|]. destruct a as [z|b|s|l|ms]; cbn [events app] in E; try (injection E as <- E; destruct es; [cbn [app] in E; congruence|discriminate]).
  - injection E as <- E. apply snoc_split in E as (q & _ & E); [|auto]. cbn [tplay tfire fst snd] in Hp. eapply (keep_list events l); [|exact E| |exact Hp]; [|discriminate]. intros x _. apply keep_root.
  - injection E as <- E. apply snoc_split in E as (q & _ & E); [|auto]. cbn [tplay tfire fst snd] in Hp. eapply (keep_list member_events ms); [|exact E| |exact Hp]; [|discriminate].
    intros m Hm es1 r1 root1 stk1 st1 E1 Hs1 Hp1. destruct es1 as [|e1 es1]; [injection Hp1 as <-; auto|]. injection E1 as <- E1. cbn [tplay tfire snd fst] in Hp1. destruct stk1 as [|[k1 t1] stk1]; [congruence|].
    eapply (keep_root (snd m) es1 r1); [exact E1| |exact Hp1]. discriminate.
Qed.
Lemma prefix_plays a es rest st : events a = es ++ rest -> exists st', tplay es st = Some st'.
Proof. intros E. pose proof (play_events a st) as H. rewrite E, tplay_app in H. destruct (tplay es st); [eauto|discriminate]. Qed.

(** ** Storage left behind *)
(** by members that replace others *)
Fixpoint owr (ms into : list (bytes * tree)) : nat :=
  match ms with
  | [] => 0
  | (k, v) :: ms' => weight (assoc k into) + owr ms' (assoc_set k v into)
  end.
Fixpoint own (a : ast) : nat :=
  match a with
  | AInt _ => 1
  | ABool _ | AStr _ => 0
  | AArr l => list_sum (map own l) + 3 * waste (denote a)
  | AObj ms => list_sum (map (fun m => own (snd m)) ms) + owr (map dmem ms) [] + 3 * waste (denote a)
  end.

Lemma cost_events a : forall st, tplay_cost (events a) st = own a + over st.
Proof.
  induction a as [z|b|s|l IH|ms IH] using ast_ind2; intros st; cbn [events tplay_cost tcost tfire own]; try lia.
  - set (d := denote (AArr l)).
    assert (HE : forall l0, tplay (flat_map events l) (fst st, ([] : bytes, TArr l0) :: snd st) = Some (fst st, ([] : bytes, TArr (l0 ++ map denote l)) :: snd st) /\
                            tplay_cost (flat_map events l) (fst st, ([] : bytes, TArr l0) :: snd st) = list_sum (map own l)).
    { clear d. induction IH as [|x l Hx _ IHl]; intros l0; cbn [flat_map map tplay tplay_cost list_sum fold_right]; [now rewrite app_nil_r|]. specialize (IHl (l0 ++ [denote x])) as [I1 I2].
      assert (E1 : tplay (events x) (fst st, ([] : bytes, TArr l0) :: snd st) = Some (fst st, ([] : bytes, TArr (l0 ++ [denote x])) :: snd st)) by apply play_events.
      rewrite tplay_app, E1, (cost_app _ _ _ _ E1), Hx, I1, I2, <- app_assoc. split; [reflexivity|]. unfold over. cbn [snd]. unfold list_sum. lia. }
    destruct (HE []) as [E1 E2]. rewrite (cost_app _ _ _ _ E1), E2. cbn [tplay_cost tcost tfire snd fst app]. change (TArr (map denote l)) with d. destruct st as [root stk]. cbn [fst snd]. lia.
  - set (d := denote (AObj ms)). match goal with |- context [flat_map ?F ms] => change (flat_map F ms) with (flat_map member_events ms) end.
    assert (HE : forall k0 m0, exists k1, tplay (flat_map member_events ms) (fst st, (k0, TObj m0) :: snd st) = Some (fst st, (k1, TObj (enter_all (map dmem ms) m0)) :: snd st) /\
                            tplay_cost (flat_map member_events ms) (fst st, (k0, TObj m0) :: snd st) = list_sum (map (fun m => own (snd m)) ms) + owr (map dmem ms) m0).
    { clear d. induction IH as [|m ms Hm _ IHl]; intros k0 m0; cbn [flat_map map tplay tplay_cost list_sum fold_right enter_all owr]; [now exists k0|]. destruct (IHl (fst m) (assoc_set (fst m) (denote (snd m)) m0)) as (k1 & I1 & I2). exists k1.
      assert (E1 : tplay (member_events m) (fst st, (k0, TObj m0) :: snd st) = Some (fst st, (fst m, TObj (assoc_set (fst m) (denote (snd m)) m0)) :: snd st)). { unfold member_events. cbn [tplay tfire snd fst]. rewrite play_events. reflexivity. }
      assert (E2 : tplay_cost (member_events m) (fst st, (k0, TObj m0) :: snd st) = own (snd m) + weight (assoc (fst m) m0)). { unfold member_events. cbn [tplay_cost tcost tfire snd fst]. rewrite Hm. reflexivity. }
      rewrite tplay_app, E1, (cost_app _ _ _ _ E1), E2, I1, I2. cbn [dmem enter_all owr]. split; [reflexivity|]. unfold list_sum. lia. }
    destruct (HE [] []) as (k1 & E1 & E2). rewrite (cost_app _ _ _ _ E1), E2. cbn [tplay_cost tcost tfire snd fst]. change (TObj (enter_all (map dmem ms) [])) with d. destruct st as [root stk]. cbn [fst snd]. lia.
Qed.

Lemma sum_zero {A} (f : A -> nat) l : list_sum (map f l) = 0 <-> Forall (fun x => f x = 0) l.
Proof.
  induction l as [|x l IH]; cbn [map list_sum fold_right]; [split; [constructor|reflexivity]|]. rewrite Forall_cons_iff. fold (list_sum (map f l)). rewrite <- IH. lia.
Qed.
Lemma blocks_zero a : blocks (denote a) = 0 <-> exists b, a = ABool b.
Proof. destruct a; cbn; split; intros H; try lia; try (destruct H as (? & H); discriminate); eauto. Qed.
Lemma waste_arr l : waste (TArr l) = list_sum (map blocks l).
Proof. unfold waste. cbn [blocks freed]. lia. Qed.
Lemma waste_zero t : waste t = 0 <-> plain t = true.
Proof. unfold waste. destruct (freed_blocks t) as [H1 H2]. rewrite <- H2. lia. Qed.
Lemma waste_obj ms : waste (TObj ms) = 0 <-> Forall (fun m => waste (snd m) = 0) ms.
Proof.
  rewrite waste_zero. cbn [plain]. rewrite forallb_forall, Forall_forall. split; intros H x Hx; specialize (H x Hx); now apply waste_zero.
Qed.
Lemma enter_in {A} ms : forall into (m : bytes * A), In m (enter_all ms into) -> In m ms \/ In m into.
Proof.
  induction ms as [|[k v] ms IH]; intros into m H; cbn [enter_all] in H; auto. apply IH in H as [H|H]; [left; now right|]. revert H. clear. induction into as [|[j w] into IH]; cbn [assoc_set In].
  - intros [<-|[]]. left. now left.
  - destruct (bytes_eqb_spec j k) as [->|]; cbn [In]; intros [<-|H].
    + left. now left.
    + right. now right.
    + right. now left.
    + destruct (IH H) as [H'|H']; [left; exact H'|right; right; exact H'].
Qed.
Lemma owr_zero ms : forall into, owr ms into = 0 <->
  (forall k, In k (map fst ms) -> weight (assoc k into) = 0) /\ (forall m1 k v m2, ms = m1 ++ (k, v) :: m2 -> In k (map fst m2) -> blocks v = 0).
Proof.
  induction ms as [|[k v] ms IH]; intros into; cbn [owr map fst].
  - split; [|reflexivity]. intros _. split; [intros k []|]. intros m1 k v m2 E. destruct m1; discriminate.
  - split.
    + intros H. apply Nat.eq_add_0 in H as [H1 H2]. apply IH in H2 as [H2 H3]. split.
      * intros j [<-|Hj]; auto. destruct (bytes_eqb_spec k j) as [<-|Hn]; auto. rewrite <- (ValueProof3.assoc_set_other _ _ v _ Hn). auto.
      * intros [|m m1] j w m2 E Hj; cbn [app] in E; [|injection E as _ E; eapply H3; eauto]. injection E as -> -> ->. specialize (H2 j Hj).
        assert (E : assoc j (assoc_set j w into) = Some w). { clear. induction into as [|[i x] into IH]; cbn [assoc_set assoc]; [now rewrite beq_refl|]. destruct (bytes_eqb_spec i j) as [->|Hn]; cbn [assoc]; [now rewrite beq_refl|]. destruct (bytes_eqb_spec i j); [congruence|auto]. }
        rewrite E in H2. exact H2.
    + intros [H1 H2]. rewrite (H1 k (or_introl eq_refl)). cbn. apply IH. split.
      * intros j Hj. destruct (bytes_eqb_spec k j) as [<-|Hn].
        -- assert (E : assoc k (assoc_set k v into) = Some v). { clear. induction into as [|[i x] into IH]; cbn [assoc_set assoc]; [now rewrite beq_refl|]. destruct (bytes_eqb_spec i k) as [->|Hn]; cbn [assoc]; [now rewrite beq_refl|]. destruct (bytes_eqb_spec i k); [congruence|auto]. }
           rewrite E. apply (H2 [] k v ms eq_refl Hj).
        -- rewrite (ValueProof3.assoc_set_other _ _ v _ Hn). apply H1. now right.
      * intros m1 j w m2 -> Hj. apply (H2 ((k, v) :: m1) j w m2 eq_refl Hj).
Qed.
Lemma fold_plain (ms : list (bytes * ast)) : fold_right (fun m p => plain_text (snd m) /\ p) True ms <-> Forall (fun m => plain_text (snd m)) ms.
Proof. induction ms as [|m ms IH]; cbn [fold_right]; [split; constructor|]. rewrite Forall_cons_iff, IH. tauto. Qed.
Lemma dup_bool ms : (forall m1 k v m2, ms = m1 ++ (k, v) :: m2 -> In k (map fst m2) -> exists b, v = ABool b) <->
  (forall m1 k v m2, map dmem ms = m1 ++ (k, v) :: m2 -> In k (map fst m2) -> blocks v = 0).
Proof.
  assert (Hk : forall l, map fst (map dmem l) = map fst l) by (intros l; rewrite map_map; now apply map_ext).
  split; intros H m1 k v m2 E Hi.
  - apply map_split in E as (l1 & [|[k' v'] l2] & -> & <- & E); [discriminate|]. injection E as -> <- <-. rewrite Hk in Hi. destruct (H l1 k v' l2 eq_refl Hi) as (b & ->). reflexivity.
  - apply blocks_zero. apply (H (map dmem m1) k (denote v) (map dmem m2)); [rewrite E, map_app; reflexivity|]. rewrite Hk. exact Hi.
Qed.
Lemma own_plain a : (own a = 0 <-> plain_text a) /\ waste (denote a) <= own a.
Proof.
  induction a as [z|b|s|l IH|ms IH] using ast_ind2; cbn [own plain_text]; try (cbn; split; [split; auto; lia|lia]).
  - split; [|lia]. cbn [denote]. rewrite waste_arr. rewrite map_map. set (w := list_sum (map (fun x => blocks (denote x)) l)). assert (Hw : w = 0 <-> Forall (fun x => exists b, x = ABool b) l).
    { unfold w. rewrite sum_zero. split; intros H; (eapply Forall_impl; [|exact H]); intros x; apply blocks_zero. }
    rewrite <- Hw. split; [lia|]. intros E. rewrite E. rewrite Nat.mul_0_r, Nat.add_0_r. apply sum_zero. apply Hw in E. eapply Forall_impl; [|exact E]. intros x (b & ->). reflexivity.
  - split; [|lia]. rewrite fold_plain, dup_bool. split.
    + intros H. apply Nat.eq_add_0 in H as [H _]. apply Nat.eq_add_0 in H as [H1 H2]. apply owr_zero in H2 as [_ H2]. split; [exact H2|]. apply sum_zero in H1. rewrite Forall_forall in *. intros m Hm. apply (IH m Hm). now apply H1.
    + intros [H1 H2]. assert (E1 : list_sum (map (fun m => own (snd m)) ms) = 0). { apply sum_zero. rewrite Forall_forall in *. intros m Hm. apply (IH m Hm). now apply H2. }
      assert (E2 : owr (map dmem ms) [] = 0) by (apply owr_zero; split; [reflexivity|exact H1]).
      assert (E3 : waste (denote (AObj ms)) = 0). { cbn [denote]. apply waste_obj. apply Forall_forall. intros m Hm. apply enter_in in Hm as [Hm|[]]. apply in_map_iff in Hm as (m' & <- & Hm'). cbn [snd]. rewrite Forall_forall in *. destruct (IH m' Hm') as [I1 I2]. specialize (H2 m' Hm'). apply I1 in H2. lia. }
      lia.
Qed.

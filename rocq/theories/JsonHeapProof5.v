(** A Parser and an EniBase on the memory: construction and destruction. *)
From Verif Require Import Base JsonModel JsonSpec JsonProof JsonProof2 ValueSpec ValueModel ValueProof ValueProof4 ValueProof5 ValueProof6 ValueProof7 ValueProof8 JsonHeapSpec JsonHeapModel JsonHeapProof2 JsonHeapProof3 JsonHeapProof4 JsonLossSpec.
From Coq Require Import List NArith ZArith Bool Lia Arith.
Import ListNotations.

(** nothing on the stack would leave storage behind when the vector grows *)
Fixpoint calm (es : list ev) (st : tstate) : Prop :=
  match es with
  | [] => True
  | e :: es' => wastes (trees (snd st)) = 0 /\ match tfire e st with Some st' => calm es' st' | None => True end
  end.
Lemma calm_app es1 : forall es2 st st', tplay es1 st = Some st' -> calm es1 st -> calm es2 st' -> calm (es1 ++ es2) st.
Proof.
  induction es1 as [|e es1 IH]; intros es2 st st' Hp H1 H2; cbn [app calm tplay] in *; [injection Hp as <-; exact H2|]. destruct (tfire e st); [|discriminate]. destruct H1 as [H0 H1]. split; eauto.
Qed.
Lemma wastes_cons k t stk : wastes (trees ((k, t) :: stk)) = wastes (trees stk) + waste t.
Proof. unfold wastes. rewrite trees_cons, map_app, list_sum_app. cbn [map list_sum fold_right]. lia. Qed.
Lemma assoc_set_forall (P : tree -> Prop) k u ms : P u -> Forall (fun m => P (snd m)) ms -> Forall (fun m => P (snd m)) (assoc_set k u ms).
Proof.
  intros Hu. induction 1 as [|[j w] ms Hw Hms IH]; cbn [assoc_set]; [constructor; [exact Hu|constructor]|]. destruct (bytes_eqb j k); (constructor; [|now auto]); cbn [snd] in *; assumption.
Qed.
Lemma calm_events a : forall st, plain_text a -> wastes (trees (snd st)) = 0 -> calm (events a) st.
Proof.
  induction a as [z|b|s|l IH|ms IH] using ast_ind2; intros st Hp Hw; cbn [plain_text] in Hp; try contradiction; cbn [events calm tfire]; try (split; [exact Hw|exact I]); (split; [exact Hw|]).
  - clear IH.
    assert (HE : forall l0, Forall (fun t => blocks t = 0) l0 -> tplay (flat_map events l) (fst st, ([] : bytes, TArr l0) :: snd st) = Some (fst st, ([] : bytes, TArr (l0 ++ map denote l)) :: snd st) /\
                            calm (flat_map events l) (fst st, ([] : bytes, TArr l0) :: snd st) /\ Forall (fun t => blocks t = 0) (l0 ++ map denote l)).
    { induction Hp as [|x l (b & ->) _ IHl]; intros l0 H0; cbn [flat_map map tplay calm events app]; [rewrite app_nil_r; auto|]. cbn [tfire tparent snd fst denote].
      destruct (IHl (l0 ++ [TBool b])) as (I1 & I2 & I3). { apply Forall_app. split; auto. } rewrite <- app_assoc in I1, I3. split; [exact I1|]. split; [|exact I3]. split; [|exact I2].
      rewrite wastes_cons, Hw, waste_arr. cbn. apply sum_zero. exact H0. }
    destruct (HE []) as (E1 & E2 & E3); [constructor|]. eapply calm_app; [exact E1|exact E2|]. cbn [calm snd fst app]. split; [|destruct (tfire EvEnd _); exact I]. rewrite wastes_cons, Hw, waste_arr. cbn. apply sum_zero. exact E3.
  - match goal with |- context [flat_map ?F ms] => change (flat_map F ms) with (flat_map member_events ms) end. destruct Hp as [_ Hp]. apply fold_plain in Hp.
    assert (HE : forall k0 m0, Forall (fun m => waste (snd m) = 0) m0 -> exists k1 m1, tplay (flat_map member_events ms) (fst st, (k0, TObj m0) :: snd st) = Some (fst st, (k1, TObj m1) :: snd st) /\
                            calm (flat_map member_events ms) (fst st, (k0, TObj m0) :: snd st) /\ Forall (fun m => waste (snd m) = 0) m1).
    { revert Hp. induction IH as [|m ms Hm _ IHl]; intros Hp k0 m0 H0; cbn [flat_map map tplay calm]; [exists k0, m0; auto|]. apply Forall_cons_iff in Hp as [Hpm Hp].
      assert (Hwd : waste (denote (snd m)) = 0). { destruct (own_plain (snd m)) as [I1 I2]. apply I1 in Hpm. lia. }
      assert (H1 : Forall (fun m => waste (snd m) = 0) (assoc_set (fst m) (denote (snd m)) m0)) by (apply (assoc_set_forall (fun t => waste t = 0)); auto).
      destruct (IHl Hp (fst m) _ H1) as (k1 & m1 & I1 & I2 & I3). exists k1, m1.
      assert (E1 : tplay (member_events m) (fst st, (k0, TObj m0) :: snd st) = Some (fst st, (fst m, TObj (assoc_set (fst m) (denote (snd m)) m0)) :: snd st)). { unfold member_events. cbn [tplay tfire snd fst]. rewrite play_events. reflexivity. }
      rewrite tplay_app, E1. split; [exact I1|]. split; [|exact I3]. eapply calm_app; [exact E1| |exact I2]. unfold member_events. cbn [calm tfire snd fst].
      assert (Hw0 : forall k, wastes (trees ((k, TObj m0) :: snd st)) = 0). { intros k. rewrite wastes_cons, Hw. cbn. now apply waste_obj. }
      split; [apply Hw0|]. apply Hm; [exact Hpm|apply Hw0]. }
    destruct (HE [] [] (Forall_nil _)) as (k1 & m1 & E1 & E2 & E3). eapply calm_app; [exact E1|exact E2|]. cbn [calm snd]. split; [|destruct (tfire EvEnd _); exact I]. rewrite wastes_cons, Hw. cbn. now apply waste_obj.
Qed.

(** ** How much an event can lose *)
(** the objects that the values of the parser hold *)
Definition held (st : tstate) : nat := blocks (fst st) + list_sum (map (fun p => blocks (snd p)) (snd st)).
Lemma held_cons root k t stk : held (root, (k, t) :: stk) = held (root, stk) + blocks t.
Proof. unfold held. cbn [fst snd map list_sum fold_right]. unfold list_sum. lia. Qed.
Lemma assoc_set_sum k u ms : list_sum (map (fun m => blocks (snd m)) (assoc_set k u ms)) <= list_sum (map (fun m => blocks (snd m)) ms) + blocks u.
Proof. induction ms as [|[j w] ms IH]; cbn [assoc_set map list_sum fold_right snd]; [lia|]. destruct (bytes_eqb j k); cbn [map list_sum fold_right snd]; unfold list_sum in *; lia. Qed.
Lemma assoc_weight k (ms : list (bytes * tree)) : weight (assoc k ms) <= list_sum (map (fun m => blocks (snd m)) ms).
Proof. induction ms as [|[j w] ms IH]; cbn [assoc map list_sum fold_right snd]; [cbn; lia|]. destruct (bytes_eqb j k); cbn [weight]; unfold list_sum in *; lia. Qed.
Lemma held_parent u st : held (tparent u st) <= held st + blocks u.
Proof.
  destruct st as [root [|[k t] stk]]; unfold tparent; cbn [fst snd]; [unfold held; cbn; lia|]. rewrite !held_cons. destruct t as [| | | |l|ms]; cbn [blocks]; try lia.
  - rewrite map_app, list_sum_app. cbn. lia.
  - pose proof (assoc_set_sum k u ms). lia.
Qed.
Lemma held_fire e st st' : tfire e st = Some st' -> held st' <= S (held st).
Proof.
  destruct e; cbn [tfire]; intros H.
  1-3: injection H as <-; match goal with |- held (tparent ?u ?v) <= _ => pose proof (held_parent u v) as Hh end; cbn [blocks] in Hh; lia.
  - destruct st as [root [|[k0 t] stk]]; [discriminate|]. injection H as <-. cbn [fst snd]. rewrite !held_cons. lia.
  - injection H as <-. rewrite held_cons. destruct st. cbn. lia.
  - injection H as <-. rewrite held_cons. destruct st. cbn. lia.
  - destruct st as [root [|[k0 t] stk]]; [discriminate|]. injection H as <-. cbn [fst snd]. rewrite held_cons. pose proof (held_parent t (root, stk)). lia.
Qed.
Lemma held_over st : over st <= held st.
Proof.
  destruct st as [root [|[k t] stk]]; unfold over; cbn [fst snd]; [unfold held; cbn; lia|]. rewrite held_cons. destruct t as [| | | |l|ms]; cbn [blocks]; try lia. pose proof (assoc_weight k ms). lia.
Qed.
Lemma held_wastes root stk : waste root + wastes (trees stk) <= held (root, stk).
Proof.
  induction stk as [|[k t] stk IH]; [unfold held, waste, wastes; cbn; lia|]. rewrite held_cons, wastes_cons. unfold waste at 2. lia.
Qed.
Lemma held_cost e st : tcost e st <= S (3 * held st).
Proof.
  pose proof (held_over st). destruct e; cbn [tcost]; try lia. destruct st as [root [|[k t] stk]]; cbn [fst snd]; [lia|]. rewrite held_cons. pose proof (held_over (root, stk)). unfold waste. lia.
Qed.

Section Grow.
  Variable grows : nat -> bool.
  Notation K := (K_heap grows).

  (** how often m_Stack grew so far *)
  Definition opens (e : ev) : nat := match e with EvArr | EvObj => 1 | _ => 0 end.
  Lemma parent_pushes c c' : h_set_parent c = Ret c' -> h_pushes c' = h_pushes c.
  Proof. unfold h_set_parent. intros H. apply bind_ret in H as (s1 & _ & H). apply bind_ret in H as (s2 & _ & H). injection H as <-. reflexivity. Qed.
  Lemma leaf_pushes x c c' : h_leaf x c = Ret c' -> h_pushes c' = h_pushes c.
  Proof. unfold h_leaf. intros H. apply bind_ret in H as (s1 & _ & H). apply bind_ret in H as (c1 & H1 & H). apply bind_ret in H as (s2 & _ & H). injection H as <-. apply parent_pushes in H1. exact H1. Qed.
  Lemma begin_pushes x c c' : h_begin grows x c = Ret c' -> h_pushes c' = S (h_pushes c).
  Proof. unfold h_begin. intros H. apply bind_ret in H as (s1 & _ & H). apply bind_ret in H as (s2 & _ & H). apply bind_ret in H as (s3 & _ & H). injection H as <-. reflexivity. Qed.
  Lemma hcmd_ret f c c' : hcmd f c = (c', Ret tt) -> f c = Ret c'.
  Proof. unfold hcmd. destruct (f c); intros H; try discriminate. injection H as <-. reflexivity. Qed.
  Lemma fire_pushes e c c' : fire K e c = (c', Ret tt) -> h_pushes c' = h_pushes c + opens e.
  Proof.
    destruct e; cbn [fire K_heap k_boolean k_number k_string k_begin_array k_begin_object k_end opens]; intros H; apply hcmd_ret in H; rewrite ?Nat.add_0_r, ?Nat.add_1_r; try (eapply leaf_pushes; eassumption); try (eapply begin_pushes; eassumption).
    - unfold h_number in H. apply bind_ret in H as ([h w] & _ & H). apply bind_ret in H as (s1 & _ & H). apply bind_ret in H as (c1 & H1 & H). apply bind_ret in H as (s2 & _ & H). injection H as <-. apply parent_pushes in H1. exact H1.
    - unfold h_key in H. destruct (h_keys c); [discriminate|]. injection H as <-. reflexivity.
    - unfold h_end in H. destruct (h_keys c); [discriminate|]. apply bind_ret in H as (s1 & _ & H). apply bind_ret in H as (c1 & H1 & H). apply bind_ret in H as (s2 & _ & H). injection H as <-. apply parent_pushes in H1. exact H1.
  Qed.
  (** what m_Stack loses when it grows *)
  Definition tgrow (e : ev) (st : tstate) (p : nat) : nat :=
    match e with EvArr | EvObj => if grows p then wastes (trees (snd st)) else 0 | _ => 0 end.
  Fixpoint tgrows (es : list ev) (st : tstate) (p : nat) : nat :=
    match es with
    | [] => 0
    | e :: es' => tgrow e st p + match tfire e st with Some st' => tgrows es' st' (p + opens e) | None => 0 end
    end.

  Lemma fire_ok n b c st a r L e st' : 7 <= n -> G n b c st a r L -> tfire e st = Some st' -> (nev [e] = 0 \/ v_stack true (length (snd st)) < n) ->
    exists c' L', fire K e c = (c', Ret tt) /\ G n b c' st' a r L' /\ L' = L + tcost e st + tgrow e st (h_pushes c) /\ L' <= L + S (3 * held st).
  Proof.
    intros Hn HG Ht Hd. pose proof (held_cost e st) as Hc. pose proof (held_wastes (fst st) (snd st)) as Hw. rewrite <- surjective_pairing in Hw. destruct e; cbn [tfire] in Ht; cbn [fire K_heap k_boolean k_number k_string k_begin_array k_begin_object k_end tcost tgrow] in *.
    - injection Ht as <-. destruct (leaf_ok n b c st a r L (CBool b0) Hn HG eq_refl) as (c' & E & HG'). exists c', (L + over st). unfold hcmd. rewrite E. split; [reflexivity|]. split; [exact HG'|]. lia.
    - injection Ht as <-. destruct (number_ok n b c st a r L z Hn HG) as (c' & E & HG'). exists c', (L + over st + 1). unfold hcmd. rewrite E. split; [reflexivity|]. split; [exact HG'|]. lia.
    - injection Ht as <-. destruct (leaf_ok n b c st a r L (CStr s) Hn HG eq_refl) as (c' & E & HG'). exists c', (L + over st). unfold hcmd. rewrite E. split; [reflexivity|]. split; [exact HG'|]. lia.
    - destruct st as [root [|[k0 t] stk]]; [discriminate|]. injection Ht as <-. destruct (key_ok n b c root k0 t stk a r L k HG) as (c' & E & HG'). exists c', L. unfold hcmd. rewrite E. split; [reflexivity|]. split; [exact HG'|]. lia.
    - injection Ht as <-. destruct Hd as [Hd|Hd]; [discriminate|]. destruct st as [root stk]. destruct (begin_ok grows n b c root stk a r L CArr Hn Hd HG eq_refl) as (c' & L' & E & HG' & H1). exists c', L'. unfold hcmd. rewrite E. cbn [fst snd tree_of] in *. split; [reflexivity|]. split; [exact HG'|]. destruct (grows (h_pushes c)); lia.
    - injection Ht as <-. destruct Hd as [Hd|Hd]; [discriminate|]. destruct st as [root stk]. destruct (begin_ok grows n b c root stk a r L CObj Hn Hd HG eq_refl) as (c' & L' & E & HG' & H1). exists c', L'. unfold hcmd. rewrite E. cbn [fst snd tree_of] in *. split; [reflexivity|]. split; [exact HG'|]. destruct (grows (h_pushes c)); lia.
    - destruct st as [root [|[k0 t] stk]]; [discriminate|]. injection Ht as <-. destruct (end_ok n b c root k0 t stk a r L Hn HG) as (c' & E & HG'). eexists c', _. unfold hcmd. rewrite E. cbn [fst snd] in *. split; [reflexivity|]. split; [exact HG'|]. lia.
  Qed.
  Lemma fire_depth e st st' : tfire e st = Some st' -> length (snd st') <= length (snd st) + nev [e].
  Proof.
    assert (HT : forall u st, length (snd (tparent u st)) = length (snd st)) by (intros u [root [|[k t] stk]]; reflexivity).
    destruct e; cbn [tfire]; intros H; try (injection H as <-; cbn [snd length]; rewrite ?HT; change (nev [EvArr]) with 1; change (nev [EvObj]) with 1; lia).
    - destruct st as [root [|[k0 t] stk]]; [discriminate|]. injection H as <-. cbn. lia.
    - destruct st as [root [|[k0 t] stk]]; [discriminate|]. injection H as <-. rewrite HT. cbn. lia.
  Qed.
  Lemma play_ok n b N es : forall c st a r L st', 7 + 2 * N <= n -> G n b c st a r L -> tplay es st = Some st' -> length (snd st) + nev es <= N ->
    exists c' L', play K es c = (c', Ret tt) /\ G n b c' st' a r L' /\ L' = L + tplay_cost es st + tgrows es st (h_pushes c) /\
      held st' <= held st + nev es /\ 2 * L' <= 2 * L + nev es * (6 * held st + 3 * nev es).
  Proof.
    induction es as [|e es IH]; intros c st a r L st' Hn HG Ht Hd; cbn [tplay play tplay_cost tgrows] in *.
    - injection Ht as <-. exists c, L. split; [reflexivity|]. split; [exact HG|]. cbn. lia.
    - destruct (tfire e st) as [st1|] eqn:Ef; [|discriminate]. pose proof (fire_depth _ _ _ Ef) as Hd1. change (e :: es) with ([e] ++ es) in Hd. rewrite nev_app in Hd.
      destruct (fire_ok n b c st a r L e st1 ltac:(lia) HG Ef) as (c1 & L1 & E1 & HG1 & H1 & H5). { destruct (nev [e]) eqn:Eb; [now left|right]. unfold v_stack. lia. }
      destruct (IH c1 st1 a r L1 st' Hn HG1 Ht ltac:(lia)) as (c' & L' & E2 & HG2 & H3 & H6 & H7). exists c', L'. unfold cbind. rewrite E1. split; [exact E2|]. split; [exact HG2|]. rewrite (fire_pushes _ _ _ E1) in H3. split; [lia|]. pose proof (held_fire _ _ _ Ef) as H8. change (nev (e :: es)) with (S (nev es)). split; [lia|].
      assert (nev es * (6 * held st1 + 3 * nev es) <= nev es * (6 * S (held st) + 3 * nev es)) by (apply Nat.mul_le_mono_l; lia). nia.
  Qed.
  Lemma calm_grows es : forall st p, calm es st -> tgrows es st p = 0.
  Proof.
    induction es as [|e es IH]; intros st p H; cbn [calm tgrows] in *; [reflexivity|]. destruct H as [H0 H].
    assert (tgrow e st p = 0) as -> by (destruct e; cbn [tgrow]; rewrite ?H0; destruct (grows p); reflexivity). destruct (tfire e st); [now rewrite IH|reflexivity].
  Qed.

  (** ** In terms of the text *)
  Definition opened (es : list ev) : nat := list_sum (map opens es).
  Lemma opened_app e1 e2 : opened (e1 ++ e2) = opened e1 + opened e2.
  Proof. unfold opened. now rewrite map_app, list_sum_app. Qed.
  Lemma opened_events a : opened (events a) = containers a.
  Proof.
    induction a as [z|b|s|l IH|ms IH] using ast_ind2; try reflexivity; cbn [events containers].
    - change (EvArr :: flat_map events l ++ [EvEnd]) with ([EvArr] ++ flat_map events l ++ [EvEnd]). rewrite !opened_app. change (opened [EvArr]) with 1. change (opened [EvEnd]) with 0. rewrite Nat.add_0_r. cbn [plus]. f_equal.
      induction IH as [|x l Hx _ IHl]; [reflexivity|]. cbn [flat_map map]. rewrite opened_app, Hx, IHl. reflexivity.
    - match goal with |- context [flat_map ?F ms] => change (flat_map F ms) with (flat_map member_events ms) end.
      change (EvObj :: flat_map member_events ms ++ [EvEnd]) with ([EvObj] ++ flat_map member_events ms ++ [EvEnd]). rewrite !opened_app. change (opened [EvObj]) with 1. change (opened [EvEnd]) with 0. rewrite Nat.add_0_r. cbn [plus]. f_equal.
      induction IH as [|m ms Hm _ IHl]; [reflexivity|]. cbn [flat_map map]. rewrite opened_app, IHl. f_equal. unfold member_events. change (opened (EvKey (fst m) :: events (snd m))) with (0 + opened (events (snd m))). now rewrite Hm.
  Qed.
  Lemma tgrows_app es1 : forall es2 st st' p, tplay es1 st = Some st' -> tgrows (es1 ++ es2) st p = tgrows es1 st p + tgrows es2 st' (p + opened es1).
  Proof.
    induction es1 as [|e es1 IH]; intros es2 st st' p H; cbn [app tplay tgrows] in *; [injection H as <-; unfold opened; cbn; now rewrite Nat.add_0_r|].
    destruct (tfire e st); [|discriminate]. rewrite (IH _ _ _ _ H). unfold opened. cbn [map list_sum fold_right]. rewrite !Nat.add_assoc. reflexivity.
  Qed.
  Lemma kept_waste t : kept t = waste t.
  Proof.
    induction t as [| | | |l _|ms IH] using tree_ind2; try reflexivity.
    - cbn [kept]. now rewrite waste_arr.
    - unfold waste. cbn [kept blocks freed]. assert (HF : list_sum (map (fun m => freed (snd m)) ms) <= list_sum (map (fun m => blocks (snd m)) ms)).
      { clear IH. induction ms as [|m ms IH]; [apply le_n|]. cbn [map list_sum fold_right]. destruct (freed_blocks (snd m)) as [Hf _]. unfold list_sum in IH. lia. }
      cbn [Nat.sub]. clear HF. induction IH as [|m ms Hm Hms IH]; [reflexivity|]. cbn [map list_sum fold_right].
      assert (HF : list_sum (map (fun m => freed (snd m)) ms) <= list_sum (map (fun m => blocks (snd m)) ms)).
      { clear. induction ms as [|m ms IH]; [apply le_n|]. cbn [map list_sum fold_right]. destruct (freed_blocks (snd m)) as [Hf _]. unfold list_sum in IH. lia. }
      destruct (freed_blocks (snd m)) as [Hf _]. unfold waste in Hm. unfold list_sum in *. lia.
  Qed.
  Lemma replaced_owr ms : forall into, replaced ms into = owr ms into.
  Proof. induction ms as [|[k v] ms IH]; intros into; cbn [replaced owr]; [reflexivity|]. rewrite IH. destruct (assoc k into); reflexivity. Qed.
  Lemma made_own a : made a = own a.
  Proof.
    induction a as [z|b|s|l IH|ms IH] using ast_ind2; try reflexivity; cbn [made own]; rewrite kept_waste.
    - f_equal. f_equal. apply map_ext_in. intros x Hx. rewrite Forall_forall in IH. auto.
    - rewrite replaced_owr. f_equal. f_equal. f_equal. apply map_ext_in. intros m Hm. rewrite Forall_forall in IH. auto.
  Qed.
  Lemma grows_events a : forall st p, tgrows (events a) st p = moved grows a p (wastes (trees (snd st))).
  Proof.
    induction a as [z|b|s|l IH|ms IH] using ast_ind2; intros st p; try reflexivity; cbn [events tgrows tgrow tfire moved opens]; f_equal; rewrite Nat.add_1_r.
    - assert (HE : forall l0 p, tplay (flat_map events l) (fst st, ([] : bytes, TArr l0) :: snd st) = Some (fst st, ([] : bytes, TArr (l0 ++ map denote l)) :: snd st) /\
        tgrows (flat_map events l) (fst st, ([] : bytes, TArr l0) :: snd st) p =
        (fix go l p seen := match l with [] => 0 | x :: l' => moved grows x p (wastes (trees (snd st)) + kept (TArr seen)) + go l' (p + containers x) (seen ++ [denote x]) end) l p l0).
      { induction IH as [|x l Hx _ IHl]; intros l0 p0; cbn [flat_map map]; [now rewrite app_nil_r|]. specialize (IHl (l0 ++ [denote x]) (p0 + containers x)) as [I1 I2].
        assert (E1 : tplay (events x) (fst st, ([] : bytes, TArr l0) :: snd st) = Some (fst st, ([] : bytes, TArr (l0 ++ [denote x])) :: snd st)) by apply play_events.
        rewrite tplay_app, E1, I1, <- app_assoc. split; [reflexivity|]. rewrite (tgrows_app _ _ _ _ _ E1), Hx, opened_events, I2. cbn [snd]. rewrite wastes_cons, kept_waste. reflexivity. }
      destruct (HE [] (S p)) as [E1 E2]. rewrite (tgrows_app _ _ _ _ _ E1), E2. cbn [tgrows tgrow tfire snd fst]. lia.
    - match goal with |- context [flat_map ?F ms] => change (flat_map F ms) with (flat_map member_events ms) end.
      assert (HE : forall k0 m0 p, exists k1, tplay (flat_map member_events ms) (fst st, (k0, TObj m0) :: snd st) = Some (fst st, (k1, TObj (enter_all (map dmem ms) m0)) :: snd st) /\
        tgrows (flat_map member_events ms) (fst st, (k0, TObj m0) :: snd st) p =
        (fix go ms p seen := match ms with [] => 0 | (k, x) :: ms' => moved grows x p (wastes (trees (snd st)) + kept (TObj seen)) + go ms' (p + containers x) (assoc_set k (denote x) seen) end) ms p m0).
      { induction IH as [|[k x] ms Hm _ IHl]; intros k0 m0 p0; cbn [flat_map map enter_all dmem]; [now exists k0|]. cbn [fst snd] in *. destruct (IHl k (assoc_set k (denote x) m0) (p0 + containers x)) as (k1 & I1 & I2). exists k1.
        assert (E1 : tplay (member_events (k, x)) (fst st, (k0, TObj m0) :: snd st) = Some (fst st, (k, TObj (assoc_set k (denote x) m0)) :: snd st)). { unfold member_events. cbn [tplay tfire snd fst]. rewrite play_events. reflexivity. }
        rewrite tplay_app, E1, I1. split; [reflexivity|]. rewrite (tgrows_app _ _ _ _ _ E1).
        assert (E2 : opened (member_events (k, x)) = containers x). { unfold member_events. cbn [fst snd]. change (opened (EvKey k :: events x)) with (0 + opened (events x)). now rewrite opened_events. }
        rewrite E2, I2. f_equal. unfold member_events. cbn [tgrows tgrow tfire snd fst opens]. rewrite Nat.add_0_r, Hm. cbn [snd plus]. now rewrite wastes_cons, kept_waste. }
      destruct (HE [] [] (S p)) as (k1 & E1 & E2). rewrite (tgrows_app _ _ _ _ _ E1), E2. cbn [tgrows tgrow tfire snd fst]. lia.
  Qed.
End Grow.

Lemma drop_ok n b c st a r L : G n b c st a r L -> exists s f, parser_drop c = Ret s /\ mem n b s f (L + waste (fst st) + wastes (trees (snd st))) /\ f v_args = a /\ f v_rets = r /\ forall x, x <> v_args -> x <> v_rets -> f x = None.
Proof.
  intros (Hk & f & Hm & Hd). destruct st as [root stk]. cbn [fst snd] in *. unfold parser_drop. cbn [do_ops].
  destruct (m_destroy _ _ _ _ _ v_root root Hm (d_root _ _ _ _ _ _ Hd)) as (s1 & E1 & Hm1). rewrite E1. cbn [bind].
  assert (Hdep : depth c = length (trees stk)). { unfold depth. now rewrite Hk, map_length, trees_length. } rewrite Hdep. unfold indices.
  destruct (destroy_all n b (h_side c) (trees stk) (length (trees stk)) 0 s1 _ _ Hm1 ltac:(lia)) as (s2 & f2 & E2 & Hm2 & H2 & O2). { intros i Hi. rewrite upd_other by low. apply Hd. }
  exists s2, f2. split; [exact E2|]. split; [exact Hm2|]. destruct Hd as [D1 D2 D3 D4 D5 D6 D7 D8 D9].
  assert (Hlow : forall x, x < 7 -> x <> v_root -> f2 x = f x). { intros x Hx Hr. rewrite O2 by (intros i _; now apply stack_low). now apply upd_other. }
  split; [rewrite Hlow; auto; cbv; lia|]. split; [rewrite Hlow; auto; cbv; lia|]. intros x Ha Hr.
  destruct (lt_dec x 7) as [Hx|Hx].
  - destruct (Nat.eq_dec x v_root) as [->|H0]. { rewrite O2 by (intros i _; low). apply upd_same. } rewrite Hlow by auto. unfold v_root, v_args, v_rets in *.
    assert (Hc : x = v_local \/ x = v_param \/ x = v_made \/ x = v_conv) by (unfold v_local, v_param, v_made, v_conv; lia). destruct Hc as [->|[->|[->| ->]]]; auto.
  - assert (Hc : exists s i, x = v_stack s i). { unfold v_stack. exists (Nat.odd (x - 7)), ((x - 7) / 2). pose proof (Nat.div_mod (x - 7) 2 ltac:(lia)) as Hdm. rewrite <- Nat.bit0_mod in Hdm. rewrite Nat.bit0_odd in Hdm. unfold Nat.b2n in Hdm. destruct (Nat.odd (x - 7)); lia. }
    destruct Hc as (s & i & ->). destruct (bool_dec s (h_side c)) as [->|Hs].
    + destruct (lt_dec i (length (trees stk))) as [Hi|Hi]; [apply H2; lia|]. rewrite O2 by (intros j Hj Ej; apply stack_inj in Ej; lia). rewrite upd_other by low. rewrite D8. apply nth_error_None. lia.
    + assert (s = negb (h_side c)) as -> by (destruct s, (h_side c); cbn; congruence). rewrite O2 by (intros j Hj Ej; apply stack_inj in Ej as [Ej _]; destruct (h_side c); discriminate). rewrite upd_other by low. apply D9.
Qed.

(** ** The memory a program leaves *)
Lemma owns_blocks h : (forall v t A, owns h v t A -> length A = blocks t) /\ (forall vs ts A, owns_list h vs ts A -> length A = list_sum (map blocks ts)).
Proof.
  apply owns_ind2; try (intros; reflexivity).
  - intros a vs ts A _ _ IH. cbn [length blocks]. now rewrite IH.
  - intros a ms mt A _ _ _ _ IH. cbn [length blocks]. now rewrite IH, map_map.
  - intros v t A vs ts B _ IH1 _ IH2. rewrite app_length, IH1, IH2. reflexivity.
Qed.
Lemma heap_indices h : forall j, length (filter (fun i => match nth_error h (i - j) with Some (Heap _) => true | _ => false end) (seq j (length h))) = in_use h.
Proof.
  induction h as [|x h IH]; intros j; [reflexivity|]. cbn [length seq filter]. rewrite Nat.sub_diag. cbn [nth_error].
  assert (E : filter (fun i => match nth_error (x :: h) (i - j) with Some (Heap _) => true | _ => false end) (seq (S j) (length h)) = filter (fun i => match nth_error h (i - S j) with Some (Heap _) => true | _ => false end) (seq (S j) (length h))).
  { apply filter_ext_in. intros i Hi. apply in_seq in Hi. replace (i - j) with (S (i - S j)) by lia. reflexivity. }
  unfold in_use in *. cbn [filter]. destruct x; cbn [length]; rewrite E, IH; reflexivity.
Qed.
Lemma total_fits s e n f : inv s e -> view e n f -> total n f <= in_use (s_mem s).
Proof.
  intros (A & Hi) (L1 & L2 & Hv). destruct Hi as (_ & _ & Ho & Hn).
  assert (HT : total n f <= list_sum (map blocks (e_vars e))).
  { rewrite <- L2. clear Ho Hn L1. assert (G0 : forall l j, (forall x, weight (f (j + x)) <= match nth_error l x with Some t => blocks t | None => 0 end) -> list_sum (map (fun x => weight (f x)) (seq j (length l))) <= list_sum (map blocks l)).
    { induction l as [|t l IH]; intros j H; cbn [length seq map list_sum fold_right]; [lia|]. pose proof (H 0) as H0. rewrite Nat.add_0_r in H0. cbn [nth_error] in H0. specialize (IH (S j)). assert (H1 : forall x, weight (f (S j + x)) <= match nth_error l x with Some t => blocks t | None => 0 end). { intros x. specialize (H (S x)). rewrite Nat.add_succ_r in H. exact H. } specialize (IH H1). unfold list_sum in *. lia. }
    apply G0. intros x. cbn [plus]. rewrite <- Hv. unfold look. destruct (is_alive (e_alive e) x); cbn [weight]; [|lia]. destruct (nth_error (e_vars e) x); cbn [weight]; lia. }
  inversion Ho as [| | | |a0 vs ? A1 Hc Hl|]; subst.
  assert (HA : length A1 <= in_use (s_mem s)); [|pose proof (proj2 (owns_blocks _) _ _ _ Hl); lia].
  rewrite <- (heap_indices (s_mem s) 0). apply NoDup_incl_length.
  - apply cnt_nodup. intros y. specialize (Hn y). rewrite cnt_cons in Hn. lia.
  - intros y Hy. apply filter_In. pose proof (proj2 (owns_lt _) _ _ _ Hl _ Hy) as Hlt. destruct (proj2 (owns_cells _) _ _ _ Hl _ Hy) as (bl & Hb). split; [apply in_seq; lia|]. rewrite Nat.sub_0_r. unfold cell_at in Hb.
    destruct (Nat.eqb_spec y 0) as [->|]; [|now rewrite Hb]. apply cnt_in in Hy. specialize (Hn 0). rewrite cnt_cons, cnt_one in Hn. lia.
Qed.

(** ** Construction and destruction *)
Lemma astep_length e o e' r : astep e o = Some (e', r) -> length (e_alive e') = length (e_alive e).
Proof.
  destruct o; cbn [astep_of]; intros H; repeat match type of H with context [match ?d with _ => _ end] => destruct d; try discriminate end; try discriminate; injection H as <- <-; cbn [evar eset e_alive]; rewrite ?set_nth_length; reflexivity.
Qed.
Lemma arun_length l : forall e e' log, arun e l = Some (e', log) -> length (e_alive e') = length (e_alive e).
Proof.
  induction l as [|o l IH]; intros e e' log H; cbn [arun_of] in H; [congruence|]. destruct (astep e o) as [[e1 x]|] eqn:Ea; [|discriminate]. destruct (arun e1 l) as [[e2 xs]|] eqn:Er; [|discriminate]. injection H as <- _. rewrite (IH _ _ _ Er). eapply astep_length; eauto.
Qed.
Lemma start n objs prog e log : arun (env0 n) prog = Some (e, log) ->
  exists st b, run (state0 n objs) prog = Ret (st, log) /\ mem n b st (look e) 0.
Proof.
  intros H. destruct (run_sim prog _ _ _ _ (inv0 n objs) H) as (st & E & Hi).
  assert (Hl : length (e_alive e) = n). { rewrite (arun_length _ _ _ _ H). cbn. apply repeat_length. }
  assert (Hv : view e n (look e)). { split; [auto|]. split; [|auto]. destruct Hi as (A & _ & Hl2 & _). congruence. }
  pose proof (total_fits _ _ _ _ Hi Hv). exists st, (in_use (s_mem st) - total n (look e)). split; [exact E|]. exists e. split; [exact Hi|]. split; [exact Hv|lia].
Qed.
Lemma mem_use n b s f L : mem n b s f L -> in_use (s_mem s) = b + total n f + L.
Proof. now intros (e & _ & _ & H). Qed.

Lemma mem_dead n b s f L x : mem n b s f L -> f x = None -> is_alive (s_alive s) x = false.
Proof.
  intros (e & (A & Hal & _) & (V1 & V2 & V3) & _) E. rewrite <- V3 in E. unfold look in E. rewrite Hal. destruct (is_alive (e_alive e) x) eqn:Ea; [|reflexivity]. apply alive_lt in Ea. apply nth_error_None in E. lia.
Qed.

Definition two (a r : option tree) : vars := fun x => if x =? v_args then a else if x =? v_rets then r else None.
Lemma two_eq f a r : f v_args = a -> f v_rets = r -> (forall x, x <> v_args -> x <> v_rets -> f x = None) -> forall x, f x = two a r x.
Proof. intros H1 H2 H3 x. unfold two. destruct (Nat.eqb_spec x v_args) as [->|Ha]; auto. destruct (Nat.eqb_spec x v_rets) as [->|Hr]; auto. Qed.

Section Make.
  Variable grows : nat -> bool.
  Variable lay : layout.
  Notation R := (layout_lits lay).

  Lemma bound_ok st' L k m : held st' <= held (TUndef, []) + k -> 2 * L <= 2 * 0 + k * (6 * held (TUndef, []) + 3 * k) -> k <= m ->
    2 * (L + waste (fst st') + wastes (trees (snd st'))) <= m * (3 * m + 2).
  Proof.
    change (held (TUndef, [])) with 0. intros H1 H2 H3. pose proof (held_wastes (fst st') (snd st')) as H4. rewrite <- surjective_pairing in H4.
    assert (k * (3 * k + 2) <= m * (3 * m + 2)) by (apply Nat.mul_le_mono; lia). lia.
  Qed.
  Lemma make_ok n b st a r text : 7 + 2 * length text <= n -> mem n b st (two a r) 0 ->
    exists c ok st' L', parser_make grows lay text st = (c, Ret ok) /\ G n b c st' a r L' /\
      2 * (L' + waste (fst st') + wastes (trees (snd st'))) <= length text * (3 * length text + 2) /\
      ((ok = true /\ exists x rest, gval R text x rest /\ st' = (denote x, []) /\ L' = own x + moved grows x 0 0 /\ (plain_text x -> L' = own x)) \/
       (ok = false /\ (forall x rest, ~ gval R text x rest) /\ fst st' = TUndef)).
  Proof.
    intros Hn Hm. unfold parser_make. destruct (m_new n b st _ 0 v_root CUndef Hm ltac:(unfold v_root; lia) eq_refl) as (st1 & E1 & Hm1). rewrite E1.
    assert (HG : G n b (mkH st1 [] false 0) (TUndef, []) a r 0).
    { split; [reflexivity|]. eexists. split; [exact Hm1|]. cbn [tree_of fst snd h_side]. constructor; try reflexivity. intros i. destruct i; reflexivity. }
    destruct (kparse_ok (K_heap grows) lay text) as [(x & rest & Hg & Hb & Hp)|(Hno & es & x & rest & He & Hne & Hb & Hp)].
    - destruct (play_ok grows n b (length text) (events x) _ _ _ _ _ _ Hn HG (play_events x _)) as (c & L' & E & HG' & H1 & H3 & H4). { cbn [snd length]. lia. }
      exists c, true, (tparent (denote x) (TUndef, [])), L'. split; [now apply Hp|]. split; [exact HG'|]. split; [eapply bound_ok; eauto|]. left. split; [reflexivity|]. exists x, rest. split; [exact Hg|]. split; [reflexivity|]. split; [rewrite cost_events, grows_events in H1; cbn [over snd fst blocks h_pushes] in H1; change (wastes (trees [])) with 0 in H1; lia|]. intros Hpl. rewrite (calm_grows grows _ _ _ (calm_events x (TUndef, []) Hpl eq_refl)), cost_events in H1. cbn in H1. lia.
    - destruct (prefix_plays x es rest (TUndef, []) He) as (st' & Ht). destruct (play_ok grows n b (length text) es _ _ _ _ _ _ Hn HG Ht) as (c & L' & E & HG' & _ & H3 & H4). { cbn [snd length]. lia. }
      exists c, false, st', L'. split; [now apply Hp|]. split; [exact HG'|]. split; [eapply bound_ok; eauto|]. right. split; [reflexivity|]. split; [exact Hno|]. eapply prefix_root; eauto.
  Qed.

  Lemma look_two e : (forall x, x <> v_args -> x <> v_rets -> is_alive (e_alive e) x = false) -> forall x, look e x = two (look e v_args) (look e v_rets) x.
  Proof. intros H. apply two_eq; auto. intros x H1 H2. unfold look. now rewrite H. Qed.
  Lemma G_content n b c st a r L : G n b c st a r L -> content (h_mem c) v_root = Ret (fst st) /\ (forall t, a = Some t -> content (h_mem c) v_args = Ret t) /\ (forall t, r = Some t -> content (h_mem c) v_rets = Ret t).
  Proof.
    intros (_ & f & Hm & [D1 _ _ _ _ D6 D7 _ _]). split; [eapply mem_content; eauto|]. split; intros t ->; eapply mem_content; eauto.
  Qed.

  Theorem parse_ok text n objs prog e log : 7 + 2 * length text <= n -> arun (env0 n) prog = Some (e, log) ->
    (forall x, x <> v_args -> x <> v_rets -> is_alive (e_alive e) x = false) ->
    exists st c ok st2, run (state0 n objs) prog = Ret (st, log) /\ parser_make grows lay text st = (c, Ret ok) /\ parser_drop c = Ret st2 /\
      (ok = true <-> exists a r, gval R text a r) /\
      (forall a r, gval R text a r -> content (h_mem c) v_root = Ret (denote a)) /\
      (ok = false -> content (h_mem c) v_root = Ret TUndef) /\
      (forall x t, content st x = Ret t -> content (h_mem c) x = Ret t /\ content st2 x = Ret t) /\
      (forall x, x <> v_args -> x <> v_rets -> is_alive (s_alive st2) x = false) /\
      in_use (s_mem st) <= in_use (s_mem st2) /\
      (forall a r, gval R text a r -> (in_use (s_mem st2) = in_use (s_mem st) <-> plain_text a)) /\
      2 * in_use (s_mem st2) <= 2 * in_use (s_mem st) + length text * (3 * length text + 2) /\
      (forall a r, gval R text a r -> in_use (s_mem st2) = in_use (s_mem st) + parser_loss grows a).
  Proof.
    intros Hn Hr Hfr. destruct (start n objs prog e log Hr) as (st & b & E & Hm). apply (mem_ext _ _ _ _ _ _ (look_two _ Hfr)) in Hm.
    destruct (make_ok n b st _ _ text Hn Hm) as (c & ok & st' & L' & Ep & HG & Hmax & Hcase). destruct (drop_ok _ _ _ _ _ _ _ HG) as (s2 & f & Ed & Hm2 & F1 & F2 & F3).
    apply (mem_ext _ _ _ _ _ _ (two_eq _ _ _ F1 F2 F3)) in Hm2. exists st, c, ok, s2. split; [exact E|]. split; [exact Ep|]. split; [exact Ed|].
    destruct (G_content _ _ _ _ _ _ _ HG) as (C1 & C2 & C3). pose proof (mem_use _ _ _ _ _ Hm) as U1. pose proof (mem_use _ _ _ _ _ Hm2) as U2.
    assert (Hkeep : forall x t, content st x = Ret t -> content (h_mem c) x = Ret t /\ content s2 x = Ret t).
    { intros x t Hx. assert (Hal : exists u, look e x = Some u).
      { destruct Hm as (e1 & Hi1 & (V1 & V2 & V3) & _). unfold content, find_place in Hx. cbn [fst] in Hx. destruct (is_alive (s_alive st) x) eqn:Ea; [|discriminate]. destruct Hi1 as (A & Hal & _ ). rewrite Hal in Ea. rewrite (look_two _ Hfr), <- V3. unfold look. rewrite Ea. apply alive_lt in Ea. destruct (nth_error (e_vars e1) x) eqn:En; [eauto|]. apply nth_error_None in En. lia. }
      destruct Hal as (u & Hu). pose proof Hu as Hu2. rewrite (look_two _ Hfr) in Hu2. pose proof (mem_content _ _ _ _ _ _ _ Hm Hu2) as Hc. rewrite Hx in Hc. injection Hc as ->. split; [|eapply mem_content; eauto].
      unfold two in Hu2. destruct (Nat.eqb_spec x v_args) as [->|Ha]; [now apply C2|]. destruct (Nat.eqb_spec x v_rets) as [->|Hrr]; [now apply C3|discriminate]. }
    assert (Hdead : forall x, x <> v_args -> x <> v_rets -> is_alive (s_alive s2) x = false).
    { intros x Ha Hrr. apply (mem_dead _ _ _ _ _ x Hm2). unfold two. now rewrite (proj2 (Nat.eqb_neq _ _) Ha), (proj2 (Nat.eqb_neq _ _) Hrr). }
    destruct Hcase as [(-> & x & rest & Hg & -> & H1 & H2)|(-> & Hno & Hroot)].
    - assert (Hdet : forall a r, gval R text a r -> a = x) by (intros a r Ha; now destruct (gval_det _ _ _ _ _ _ Ha Hg)). cbn [fst snd] in *.
      split; [split; eauto|]. split; [intros a r Ha; apply Hdet in Ha as ->; exact C1|]. split; [discriminate|]. split; [exact Hkeep|]. split; [exact Hdead|]. split; [lia|].
      split; [|split; [lia|intros a r Ha; apply Hdet in Ha as ->; unfold parser_loss; rewrite made_own, kept_waste; change (wastes (trees [])) with 0 in U2; lia]]. intros a r Ha. apply Hdet in Ha as ->. destruct (own_plain x) as [O1 O2]. change (wastes (trees [])) with 0 in U2. split.
      + intros Eu. apply O1. lia.
      + intros Hpl. rewrite H2 in U2 by auto. apply O1 in Hpl. lia.
    - split; [split; [discriminate|intros (a & r & Ha); now apply Hno in Ha]|]. split; [intros a r Ha; now apply Hno in Ha|]. split; [intros _; now rewrite C1, Hroot|]. split; [exact Hkeep|]. split; [exact Hdead|]. split; [lia|]. split; [intros a r Ha; now apply Hno in Ha|]. split; [lia|]. intros a r Ha. now apply Hno in Ha.
  Qed.

  (** ** EniBase *)
  Lemma m_delegate n b s f L x : mem n b s f L -> f x = Some TUndef ->
    exists s', step_op (mkS (s_alive s) (s_mem s ++ [Heap (BArr [])])) (Delegate (x, []) (length (s_mem s))) = Ret s' /\ mem n b s' (upd f x (Some (TArr []))) L.
  Proof.
    intros (e & Hi & Hv & Hu) E. destruct (view_get _ _ _ _ _ Hv E) as [_ Ge]. pose proof (view_lt _ _ _ _ _ Hv E) as Hx. destruct s as [al h], Hi as (A & Hi). cbn [s_alive s_mem] in *.
    pose proof (inv_pos _ _ _ _ Hi) as Hpos.
    destruct (at_place _ _ _ _ _ _ Hi Ge) as (a & sl & bb & v0 & A0 & Ar & Hp & _ & Hc & Hs & Hl & Ho & Hcnt & Har & Hz & Hset & _). pose proof (place_var _ _ _ Hp) as Hpl. injection Hpl as -> ->.
    assert (Hp' : find_place (mkS al (h ++ [Heap (BArr [])])) (x, []) = Ret (0, At x)) by exact Hp.
    assert (Hc' : cell_at (h ++ [Heap (BArr [])]) 0 bb). { unfold cell_at in *. rewrite nth_error_app1 by exact Hpos. exact Hc. }
    assert (Hl' : load (h ++ [Heap (BArr [])]) (0, At x) = Ret v0). { unfold load. cbn [fst snd]. rewrite (cell_live _ _ _ Hc'). cbn [bind]. now rewrite Hs. }
    cbn [step_op s_mem s_alive]. rewrite Hp'. cbn [bind]. rewrite Hl'. cbn [bind]. assert (Hk : v_kind v0 = KUndef) by (inversion Ho; reflexivity). rewrite Hk.
    assert (Hlv : live (h ++ [Heap (BArr [])]) (length h) = Ret (BArr [])). { unfold live. rewrite nth_error_app2, Nat.sub_diag by lia. reflexivity. } rewrite Hlv. cbn [bind].
    unfold store. cbn [fst snd]. rewrite (cell_live _ _ _ Hc'). cbn [bind]. rewrite Hs. cbn [bind]. eexists. split; [reflexivity|].
    destruct (Hset (set_block (h ++ [Heap (BArr [])]) 0 (set_slot bb (At x) (mkV KArr (HPtr (length h))))) (mkV KArr (HPtr (length h))) (TArr []) [length h]) as (A' & Hi' & _).
    - eapply cell_set; eauto.
    - intros y Hy Hy2. rewrite set_block_other by auto. apply nth_error_app1. destruct Hi as (_ & _ & How & _). apply (proj1 (owns_lt h) _ _ _ How). apply cnt_in. rewrite Hcnt. lia.
    - apply (O_arr _ (length h) [] [] []); [|constructor]. apply set_block_live; [|lia]. unfold cell_at. rewrite nth_error_app2, Nat.sub_diag by lia. cbn. destruct (Nat.eqb_spec (length h) 0); [lia|reflexivity].
    - intros y. destruct Hi as (_ & _ & How & Hnd). destruct (Nat.eq_dec (length h) y) as [<-|Hy].
      + rewrite cnt_one. assert (cnt A (length h) = 0). { apply cnt_not. intros Hin. apply (proj1 (owns_lt h) _ _ _ How) in Hin. lia. } rewrite Hcnt in H. lia.
      + rewrite cnt_other by auto. specialize (Hnd y). rewrite Hcnt in Hnd. lia.
    - exists (eset e (x, []) (TArr [])). split; [exists A'; exact Hi'|]. split; [eapply view_set; eauto|]. cbn [s_mem]. rewrite in_use_set, in_use_app, Hu. pose proof (total_upd n f x (Some (TArr [])) Hx) as T. rewrite E in T. cbn [weight blocks map list_sum fold_right] in T. change (in_use [Heap (BArr [])]) with 1. lia.
  Qed.
  Lemma desc_args f root ts side a r x : desc f root ts side a r -> desc (upd f v_args x) root ts side x r.
  Proof. intros [D1 D2 D3 D4 D5 D6 D7 D8 D9]. constructor; try (rewrite upd_other by (cbv; lia); assumption); [apply upd_same| |]; intros i; rewrite upd_other by low; auto. Qed.
  Lemma desc_rets f root ts side a r x : desc f root ts side a r -> desc (upd f v_rets x) root ts side a x.
  Proof. intros [D1 D2 D3 D4 D5 D6 D7 D8 D9]. constructor; try (rewrite upd_other by (cbv; lia); assumption); [apply upd_same| |]; intros i; rewrite upd_other by low; auto. Qed.

  Theorem base_ok text n objs prog e log : 7 + 2 * length text <= n -> arun (env0 n) prog = Some (e, log) -> (forall x, is_alive (e_alive e) x = false) ->
    exists st, run (state0 n objs) prog = Ret (st, log) /\
      ((forall a r, ~ gval R text a r) -> base_make grows lay text st = Exit 87) /\
      (forall a r, gval R text a r -> exists st1 st2, base_make grows lay text st = Ret st1 /\ content st1 v_args = Ret (denote a) /\ content st1 v_rets = Ret (TArr []) /\
         (forall x, x <> v_args -> x <> v_rets -> is_alive (s_alive st1) x = false) /\
         base_drop st1 = Ret st2 /\ (forall x, is_alive (s_alive st2) x = false) /\ in_use (s_mem st) <= in_use (s_mem st2) /\ (in_use (s_mem st2) = in_use (s_mem st) <-> plain_text a)).
  Proof.
    intros Hn Hr Hfr. destruct (start n objs prog e log Hr) as (st & b & E & Hm). exists st. split; [exact E|].
    assert (Hno : forall x, look e x = None) by (intros x; unfold look; now rewrite Hfr).
    pose proof (mem_use _ _ _ _ _ Hm) as U0. unfold base_make. cbn [do_ops].
    destruct (m_new _ _ _ _ _ v_args CUndef Hm ltac:(unfold v_args; lia) (Hno _)) as (s1 & E1 & Hm1). rewrite E1. cbn [bind].
    destruct (m_new _ _ _ _ _ v_rets CUndef Hm1 ltac:(unfold v_rets; lia)) as (s2 & E2 & Hm2). { rewrite upd_other by (cbv; lia). apply Hno. } rewrite E2. cbn [bind tree_of] in *.
    assert (Hm3 : mem n b s2 (two (Some TUndef) (Some TUndef)) 0).
    { eapply mem_ext; [|exact Hm2]. apply two_eq; [rewrite upd_other by (cbv; lia); apply upd_same|apply upd_same|]. intros x H1 H2. rewrite !upd_other by auto. apply Hno. }
    destruct (make_ok n b s2 _ _ text Hn Hm3) as (c & ok & st' & L' & Ep & HG & Hmax & Hcase). rewrite Ep. cbn [bind].
    destruct Hcase as [(-> & x & rest & Hg & -> & H1 & H2)|(-> & Hnog & Hroot)].
    - split; [intros Hc; now apply Hc in Hg|]. intros a r Ha. destruct (gval_det _ _ _ _ _ _ Ha Hg) as [-> _]. clear Ha.
      destruct HG as (Hk & f & Hmf & Hd). cbn [fst snd] in *.
      destruct (m_assign _ _ _ _ _ v_args v_root TUndef (denote x) Hmf ltac:(cbv; lia) (d_args _ _ _ _ _ _ Hd) (d_root _ _ _ _ _ _ Hd)) as (s3 & E3 & Hm4). rewrite E3. cbn [bind blocks] in *.
      apply (desc_args _ _ _ _ _ _ (Some (denote x))) in Hd.
      destruct (m_delegate _ _ _ _ _ v_rets Hm4 (d_rets _ _ _ _ _ _ Hd)) as (s4 & E4 & Hm5). rewrite E4. cbn [bind]. apply (desc_rets _ _ _ _ _ _ (Some (TArr []))) in Hd.
      assert (HG : G n b (with_mem c s4) (denote x, []) (Some (denote x)) (Some (TArr [])) (L' + 0)). { split; [exact Hk|]. eexists. split; [exact Hm5|exact Hd]. }
      destruct (drop_ok _ _ _ _ _ _ _ HG) as (s5 & g & Ed & Hm6 & F1 & F2 & F3). cbn [fst snd] in Hm6.
      pose proof (mem_content _ _ _ _ _ _ _ Hm6 F1) as C1. pose proof (mem_content _ _ _ _ _ _ _ Hm6 F2) as C2.
      destruct (m_destroy _ _ _ _ _ v_rets _ Hm6 F2) as (s6 & E6 & Hm7). destruct (m_destroy _ _ _ _ _ v_args (denote x) Hm7) as (s7 & E7 & Hm8). { rewrite upd_other by (cbv; lia). exact F1. }
      exists s5, s7. split; [exact Ed|]. split; [exact C1|]. split; [exact C2|]. split; [intros y Hy1 Hy2; apply (mem_dead _ _ _ _ _ y Hm6); now apply F3|]. unfold base_drop. cbn [do_ops]. rewrite E6. cbn [bind]. rewrite E7. cbn [bind]. split; [reflexivity|].
      pose proof (mem_use _ _ _ _ _ Hm8) as U8.
      assert (Hnone : forall y, upd (upd g v_rets None) v_args None y = None). { intros y. destruct (Nat.eq_dec y v_args) as [->|Hy]; [apply upd_same|]. rewrite upd_other by auto. destruct (Nat.eq_dec y v_rets) as [->|Hy2]; [apply upd_same|]. rewrite upd_other by auto. now apply F3. }
      split; [intros y; apply (mem_dead _ _ _ _ _ y Hm8); apply Hnone|].
      assert (Ht : total n (upd (upd g v_rets None) v_args None) = total n (look e)). { apply total_ext. intros y _. rewrite Hno. apply Hnone. }
      rewrite Ht in U8. change (wastes (trees [])) with 0 in U8. fold (waste (TArr [])) in U8. fold (waste (denote x)) in U8. change (waste (TArr [])) with 0 in U8. destruct (own_plain x) as [O1 O2]. split; [lia|]. split.
      + intros Eu. apply O1. lia.
      + intros Hpl. rewrite H2 in U8 by auto. apply O1 in Hpl. lia.
    - split; [reflexivity|]. intros a r Ha. now apply Hnog in Ha.
  Qed.
End Make.

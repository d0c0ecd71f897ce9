(** Destroying what a failed operation left. *)
From Verif Require Import Base JsonModel ValueSpec ValueModel ValueFaultModel JsonHeapModel JsonOomModel ValueProof ValueProof2 ValueProof3 ValueProof4 ValueProof5 ValueProof6 ValueProof7 ValueProof8 ValueFaultProof ValueFaultProof2 JsonOomProof.
From Coq Require Import List NArith ZArith Bool Lia Arith.
Import ListNotations.

(** values that a destructor leaves alone *)
Definition inert (v : val) : bool :=
  match v_kind v, v_hold v with
  | KUndef, _ | KBool, _ | KInt, _ => true
  | _, HNull => true
  | _, _ => false
  end.
Definition vrel (v v' : val) : Prop := v' = v \/ (inert v = true /\ inert v' = true).
Definition brel (b b' : block) : Prop :=
  match b, b' with
  | BInt _, BInt _ | BStr _, BStr _ | BArr _, BArr _ => True
  | BObj ms, BObj ms' => exists l ex, map snd ms' = l ++ ex /\ Forall2 vrel (map snd ms) l /\ Forall (fun v => inert v = true) ex
  | _, _ => False
  end.
Definition crel (c c' : cell) : Prop :=
  match c, c' with
  | Heap b, Heap b' | Auto b, Auto b' => brel b b'
  | Dead, Dead => True
  | _, _ => False
  end.
Definition hrel (h h' : heap) : Prop := length h <= length h' /\ forall a c, nth_error h a = Some c -> exists c', nth_error h' a = Some c' /\ crel c c'.

Lemma vrel_refl v : vrel v v.
Proof. now left. Qed.
Lemma vrels_refl l : Forall2 vrel l l.
Proof. induction l; constructor; auto using vrel_refl. Qed.
Lemma brel_refl b : brel b b.
Proof. destruct b; cbn; auto. exists (map snd ms), []. rewrite app_nil_r. split; auto. split; [apply vrels_refl|constructor]. Qed.
Lemma crel_refl c : crel c c.
Proof. destruct c; cbn; auto using brel_refl. Qed.
Lemma hrel_refl h : hrel h h.
Proof. split; auto. intros a c E. exists c. auto using crel_refl. Qed.
Lemma hrel_app h h' ex : hrel h h' -> hrel h (h' ++ ex).
Proof.
  intros [Hl H]. split; [rewrite app_length; lia|]. intros a c E. destruct (H a c E) as (c' & E' & Hc). exists c'. split; auto. rewrite nth_error_app1; auto. apply nth_error_Some. congruence.
Qed.
Lemma hrel_dead h h' a c : hrel h h' -> nth_error h a = Some c -> hrel (set_nth a Dead h) (set_nth a Dead h').
Proof.
  intros [Hl H] Ea. split; [now rewrite !set_nth_length|]. intros x cx E. destruct (H a c Ea) as (c' & Ea' & _). destruct (Nat.eq_dec a x) as [<-|Hn].
  - rewrite set_nth_same in E by (apply nth_error_Some; congruence). injection E as <-. exists Dead. split; [apply set_nth_same; apply nth_error_Some; congruence|exact I].
  - rewrite set_nth_other in E by auto. rewrite set_nth_other by auto. auto.
Qed.
Lemma release_sim h h' a h1 : hrel h h' -> release h a = Ret h1 -> exists h1', release h' a = Ret h1' /\ hrel h1 h1'.
Proof.
  intros Hr E. unfold release in *. destruct (nth_error h a) as [[b|b|]|] eqn:Ea; try discriminate. injection E as <-. destruct (proj2 Hr a _ Ea) as (c' & Ea' & Hc). destruct c'; try contradiction.
  rewrite Ea'. eexists. split; [reflexivity|]. eapply hrel_dead; eauto.
Qed.
Lemma inert_destroy fuel h v : inert v = true -> destroy (S fuel) h v = Ret h.
Proof. unfold inert. cbn [destroy]. destruct (v_kind v), (v_hold v); try discriminate; auto. Qed.
Lemma deref_sim h h' p a b : hrel h h' -> deref h p = Ret (a, b) -> exists b', deref h' p = Ret (a, b') /\ brel b b'.
Proof.
  intros Hr E. destruct p; try discriminate. cbn [deref] in *. unfold live in *. destruct (nth_error h a0) as [[b0|b0|]|] eqn:Ea; try discriminate; cbn [bind] in E; injection E as <- <-;
    destruct (proj2 Hr _ _ Ea) as (c' & Ea' & Hc); destruct c'; try contradiction; rewrite Ea'; cbn [bind]; eauto.
Qed.
(** exactly the same object of the program stays *)
Lemma auto_release' h a' h' a b : release h a' = Ret h' -> nth_error h a = Some (Auto b) -> nth_error h' a = Some (Auto b).
Proof.
  unfold release. intros E Ea. destruct (nth_error h a') as [[b0|b0|]|] eqn:En; try discriminate. injection E as <-. rewrite set_nth_other; auto. intros ->. congruence.
Qed.
Lemma auto_destroy' fuel : forall h v h' a b, destroy fuel h v = Ret h' -> nth_error h a = Some (Auto b) -> nth_error h' a = Some (Auto b).
Proof.
  induction fuel as [|f IH]; intros h v h' a b E Ha; [discriminate|].
  assert (HL : forall vs h0 h', destroy_list (destroy f) h0 vs = Ret h' -> nth_error h0 a = Some (Auto b) -> nth_error h' a = Some (Auto b)).
  { induction vs as [|v1 vs IHl]; intros h0 h1 El H0; cbn [destroy_list] in El. { injection El as <-. auto. } apply bind_ret in El as (h2 & E1 & El). eapply IHl; eauto. }
  destruct (inert v) eqn:Ei. { rewrite inert_destroy in E by exact Ei. injection E as <-. auto. }
  unfold inert in Ei. cbn [destroy] in *. destruct (v_kind v); try discriminate; destruct (v_hold v) as [|hb|hp|] eqn:Eh; try discriminate; rewrite <- Eh in *; clear Ei;
    apply bind_ret in E as ([a0 b0] & Ed & E); destruct b0; try discriminate; try (eapply auto_release'; eassumption).
  apply bind_ret in E as (h2 & E2 & E). eapply auto_release'; eauto.
Qed.
Lemma destroy_more f : forall f' h v h1, f <= f' -> destroy f h v = Ret h1 -> destroy f' h v = Ret h1.
Proof.
  induction f as [|f IH]; intros [|f'] h v h1 Hf E; try discriminate; [lia|].
  assert (IHl : forall vs h h1, destroy_list (destroy f) h vs = Ret h1 -> destroy_list (destroy f') h vs = Ret h1).
  { induction vs as [|w vs IHl]; intros h0 h2 E0; cbn [destroy_list] in *; auto. apply bind_ret in E0 as (h3 & E3 & E0). rewrite (IH f' h0 w h3) by (auto; lia). cbn [bind]. auto. }
  destruct (inert v) eqn:Ei. { rewrite inert_destroy in E |- * by exact Ei. exact E. }
  unfold inert in Ei. cbn [destroy] in *. destruct (v_kind v); try discriminate; destruct (v_hold v) as [|hb|hp|] eqn:Eh; try discriminate; rewrite <- Eh in *; clear Ei; auto.
  apply bind_ret in E as ([a0 b0] & Ed & E). rewrite Ed. cbn [bind]. destruct b0; try discriminate. apply bind_ret in E as (h2 & E2 & E). rewrite (IHl _ _ _ E2). exact E.
Qed.
Lemma destroy_sim f : forall f' h h' v v' h1, f < f' -> hrel h h' -> vrel v v' -> destroy f h v = Ret h1 -> exists h1', destroy f' h' v' = Ret h1' /\ hrel h1 h1'.
Proof.
  induction f as [|f IH]; intros [|f'] h h' v v' h1 Hf Hr Hv E; try discriminate; [lia|].
  assert (IHl : forall vs l ex h h' h1, hrel h h' -> Forall2 vrel vs l -> Forall (fun v => inert v = true) ex -> destroy_list (destroy f) h vs = Ret h1 ->
    exists h1', destroy_list (destroy f') h' (l ++ ex) = Ret h1' /\ hrel h1 h1').
  { clear - IH Hf. intros vs l ex h h' h1 Hr Hl He. revert h h' h1 Hr. induction Hl as [|w w' vs l Hw Hl IHl]; intros h h' h1 Hr E; cbn [destroy_list app] in *.
    - injection E as <-. exists h'. split; auto. destruct f' as [|f']; [lia|]. induction He as [|w ex Hw He IHe]; [reflexivity|]. cbn [destroy_list]. rewrite inert_destroy by exact Hw. exact IHe.
    - apply bind_ret in E as (h2 & E2 & E). destruct (IH f' h h' w w' h2 ltac:(lia) Hr Hw E2) as (h2' & E2' & Hr2). rewrite E2'. cbn [bind]. exact (IHl h2 h2' h1 Hr2 E). }
  destruct Hv as [->|[H1 H2]]; [|rewrite inert_destroy in E by exact H1; injection E as <-; exists h'; split; [now apply inert_destroy|auto]].
  destruct (inert v) eqn:Ei. { rewrite inert_destroy in E by exact Ei. injection E as <-. exists h'. split; [now apply inert_destroy|auto]. }
  unfold inert in Ei. cbn [destroy] in *. destruct (v_kind v); try discriminate; destruct (v_hold v) as [|hb|hp|] eqn:Eh; try discriminate; rewrite <- Eh in *; clear Ei;
    apply bind_ret in E as ([a b] & Ed & E); destruct (deref_sim _ _ _ _ _ Hr Ed) as (b' & Ed' & Hb); rewrite Ed'; cbn [bind]; destruct b; try discriminate; destruct b'; try contradiction;
    try (eapply release_sim; eassumption).
  apply bind_ret in E as (h2 & E2 & E). destruct Hb as (l & ex & Em & Hl & Hex). rewrite Em. destruct (IHl _ _ _ _ _ _ Hr Hl Hex E2) as (h2' & E2' & Hr2). rewrite E2'. cbn [bind]. eapply release_sim; eauto.
Qed.

(** ** States *)
Definition srel (s s' : state) : Prop :=
  s_alive s' = s_alive s /\ hrel (s_mem s) (s_mem s') /\
  exists vs vs', nth_error (s_mem s) 0 = Some (Auto (BArr vs)) /\ nth_error (s_mem s') 0 = Some (Auto (BArr vs')) /\ Forall2 vrel vs vs'.
Lemma cell0 s e : inv s e -> exists vs, nth_error (s_mem s) 0 = Some (Auto (BArr vs)).
Proof. intros (A & _ & _ & Ho & _). inversion Ho as [| | | |a vs ? A0 Hc Hl|]; subst. exists vs. exact Hc. Qed.
Lemma load0 h vs x : nth_error h 0 = Some (Auto (BArr vs)) -> load h (0, At x) = match nth_error vs x with Some v => Ret v | None => UB DeadObject end.
Proof. intros E. unfold load, live. cbn [fst snd]. rewrite E. reflexivity. Qed.
Lemma store0 h vs x v : nth_error h 0 = Some (Auto (BArr vs)) -> x < length vs -> store h (0, At x) v = Ret (set_nth 0 (Auto (BArr (set_nth x v vs))) h).
Proof. intros E Hx. unfold store, live. cbn [fst snd]. rewrite E. cbn [bind slot]. destruct (nth_error vs x) eqn:En; [|apply nth_error_None in En; lia]. unfold set_block. rewrite E. reflexivity. Qed.
Lemma Forall2_nth {A} (R : A -> A -> Prop) l l' x a : Forall2 R l l' -> nth_error l x = Some a -> exists a', nth_error l' x = Some a' /\ R a a'.
Proof. intros H. revert x. induction H as [|b b' l l' Hb Hl IH]; intros [|x] E; cbn in *; try discriminate; [injection E as <-; eauto|auto]. Qed.
Lemma Forall2_set {A} (R : A -> A -> Prop) l l' x a a' : Forall2 R l l' -> R a a' -> Forall2 R (set_nth x a l) (set_nth x a' l').
Proof. intros H Ha. revert x. induction H as [|b b' l l' Hb Hl IH]; intros [|x]; cbn [set_nth]; constructor; auto. Qed.
Lemma Forall2_len {A} (R : A -> A -> Prop) l l' : Forall2 R l l' -> length l = length l'.
Proof. induction 1; cbn; auto. Qed.

Lemma destroy_step s e s' x : inv s e -> srel s s' -> is_alive (s_alive s) x = true ->
  exists s1 e1 s1', step_op s (Destroy x) = Ret s1 /\ inv s1 e1 /\ step_op s' (Destroy x) = Ret s1' /\ srel s1 s1' /\ s_alive s1 = set_nth x false (s_alive s).
Proof.
  intros Hi (Ha & Hr & vs & vs' & E0 & E0' & Hvs) Hx.
  destruct s as [al h], s' as [al' h']. cbn [s_alive s_mem] in *. subst al'.
  pose proof Hi as (A & HA). cbn [s_alive s_mem] in HA. pose proof HA as (Hal & _).
  pose proof (step_sim (mkS al h) e (Destroy x) Hi) as H. cbn [astep_of] in H. rewrite <- Hal, Hx in H. destruct H as (s1 & Es & Hi1).
  destruct (env_alive _ _ _ Hi ltac:(rewrite <- Hal; exact Hx)) as (t & _ & Gx).
  destruct (at_place _ _ _ _ _ _ HA Gx) as (a & sl & b & v0 & A0 & Ar & Hp & _ & Hc & Hs & Hl & Ho & Hcnt & Har & Hz & _).
  apply place_var in Hp. injection Hp as -> ->.
  assert (Hn0 : forall y, cnt A0 y <= 1). { intros y. destruct HA as (_ & _ & _ & Hn). specialize (Hn y). rewrite Hcnt in Hn. lia. }
  assert (Hlt : length A0 < length h).
  { pose proof (proj1 (cnt_nodup A0) Hn0) as Hnd. assert (NoDup (0 :: A0)) as Hnd2. { constructor; auto. intros Hin. apply cnt_in in Hin. lia. }
    assert (S (length A0) <= length (seq 0 (length h))). { change (S (length A0)) with (length (0 :: A0)). apply NoDup_incl_length; auto. intros y [<-|Hy]; apply in_seq; [assert (nth_error h 0 <> None) as Hq by congruence; apply nth_error_Some in Hq; lia|]. pose proof (proj1 (owns_lt h) _ _ _ Ho y Hy). lia. }
    rewrite seq_length in H. lia. }
  destruct (destroy_ok (length h) h v0 t A0 Ho Hz Hn0 Hlt) as (h1 & Ed & _).
  assert (Ed1 : destroy (fuel_of h) h v0 = Ret h1) by (apply (destroy_more (length h)); [unfold fuel_of; lia|exact Ed]).
  rewrite (load0 _ _ _ E0) in Hl. destruct (nth_error vs x) as [w|] eqn:Ew; [|discriminate]. injection Hl as ->.
  destruct (Forall2_nth _ _ _ _ _ Hvs Ew) as (v0' & Ew' & Hv).
  destruct (destroy_sim (length h) (fuel_of h') h h' v0 v0' h1) as (h1' & Ed' & Hr1); auto. { destruct Hr as [Hle _]. unfold fuel_of. lia. }
  pose proof (auto_destroy' _ _ _ _ _ _ Ed E0) as F0. pose proof (auto_destroy' _ _ _ _ _ _ Ed' E0') as F0'.
  assert (Lx : x < length vs) by (apply nth_error_Some; congruence). pose proof (Forall2_len _ _ _ Hvs) as Lv.
  assert (HD : forall h0 vs0 w h2, nth_error h0 0 = Some (Auto (BArr vs0)) -> nth_error vs0 x = Some w -> destroy (fuel_of h0) h0 w = Ret h2 -> nth_error h2 0 = Some (Auto (BArr vs0)) -> x < length vs0 ->
    step_op (mkS al h0) (Destroy x) = Ret (mkS (set_nth x false al) (set_nth 0 (Auto (BArr (set_nth x (mkV KUndef HNull) vs0))) h2))).
  { intros h0 vs0 w h2 I1 I2 I3 I4 I5. cbn [step_op s_mem s_alive]. unfold find_place. cbn [fst snd s_alive s_mem locate]. rewrite Hx. cbn [bind]. rewrite (load0 _ _ _ I1), I2. cbn [bind]. rewrite I3. cbn [bind]. rewrite (store0 _ _ _ _ I4 I5). reflexivity. }
  rewrite (HD _ _ _ _ E0 Ew Ed1 F0 Lx) in Es |- *. assert (s1 = mkS (set_nth x false al) (set_nth 0 (Auto (BArr (set_nth x (mkV KUndef HNull) vs))) h1)) as -> by congruence. clear Es.
  eexists _, _, _. split; [reflexivity|]. split; [exact Hi1|]. split; [eapply HD; eauto; lia|]. split; [|reflexivity].
  assert (P0 : 0 < length h1) by (apply nth_error_Some; congruence). assert (P0' : 0 < length h1') by (apply nth_error_Some; congruence).
  split; [reflexivity|]. cbn [s_mem]. split.
  - split; [rewrite !set_nth_length; apply Hr1|]. intros a c Ea. destruct (Nat.eq_dec 0 a) as [<-|Hn].
    + rewrite set_nth_same in Ea by auto. injection Ea as <-. eexists. split; [now apply set_nth_same|exact I].
    + rewrite set_nth_other in Ea by auto. rewrite set_nth_other by auto. now apply (proj2 Hr1).
  - eexists _, _. split; [now apply set_nth_same|]. split; [now apply set_nth_same|]. apply Forall2_set; auto. apply vrel_refl.
Qed.
Lemma srel_refl s e : inv s e -> srel s s.
Proof. intros Hi. destruct (cell0 _ _ Hi) as (vs & E). split; auto. split; [apply hrel_refl|]. exists vs, vs. auto using vrels_refl. Qed.
Lemma srel_app s s' ex : srel s s' -> srel s (mkS (s_alive s') (s_mem s' ++ ex)).
Proof.
  intros (Ha & Hr & vs & vs' & E0 & E0' & Hvs). split; [exact Ha|]. cbn [s_mem]. split; [now apply hrel_app|]. exists vs, vs'. split; auto. split; auto. rewrite nth_error_app1; auto. apply nth_error_Some. congruence.
Qed.

Lemma unwind_ok l : forall s e s', inv s e -> srel s s' ->
  exists s1 e1 s1', inv s1 e1 /\ unwind s' l = Ret s1' /\ srel s1 s1' /\ forall x, is_alive (s_alive s1') x = true -> is_alive (s_alive s') x = true /\ ~ In x l.
Proof.
  induction l as [|x l IH]; intros s e s' Hi Hr; cbn [unwind].
  - exists s, e, s'. repeat (split; auto).
  - pose proof Hr as (Ha & _). rewrite Ha. destruct (is_alive (s_alive s) x) eqn:Ex.
    + destruct (destroy_step _ _ _ _ Hi Hr Ex) as (s1 & e1 & s1' & E1 & Hi1 & E1' & Hr1 & Hal). rewrite E1'. cbn [bind]. destruct (IH _ _ _ Hi1 Hr1) as (s2 & e2 & s2' & Hi2 & E2 & Hr2 & H2).
      exists s2, e2, s2'. split; auto. split; auto. split; auto. intros y Hy. destruct (H2 y Hy) as [H3 H4]. destruct Hr1 as (Ha1 & _). rewrite Ha1, Hal in H3. destruct (Nat.eq_dec x y) as [<-|Hn].
      * rewrite alive_same in H3 by (now apply alive_lt). discriminate.
      * rewrite alive_other in H3 by auto. split; auto. intros [|]; auto.
    + destruct (IH _ _ _ Hi Hr) as (s2 & e2 & s2' & Hi2 & E2 & Hr2 & H2). exists s2, e2, s2'. split; auto. split; auto. split; auto. intros y Hy. destruct (H2 y Hy) as [H3 H4]. rewrite Ha in H3. split; auto. intros [<-|]; auto. congruence.
Qed.

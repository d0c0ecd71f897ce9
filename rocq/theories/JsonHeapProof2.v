(** The recursive descent calls the callbacks in the order of the text. *)
From Verif Require Import Base JsonModel JsonSpec JsonProof JsonProof2 JsonHeapModel JsonHeapProof.
From Coq Require Import List NArith ZArith Bool Lia.
From Coq.Init Require Import Byte.
From Coq.Strings Require Import Byte.
Import ListNotations.

Inductive ev : Type := EvBool (b : bool) | EvNum (z : Z) | EvStr (s : bytes) | EvKey (k : bytes) | EvArr | EvObj | EvEnd.
Fixpoint events (a : ast) : list ev :=
  match a with
  | AInt z => [EvNum (reduce256 z)]
  | ABool b => [EvBool b]
  | AStr s => [EvStr s]
  | AArr l => EvArr :: flat_map events l ++ [EvEnd]
  | AObj ms => EvObj :: flat_map (fun m => EvKey (fst m) :: events (snd m)) ms ++ [EvEnd]
  end.
Definition member_events (m : bytes * ast) : list ev := EvKey (fst m) :: events (snd m).
Definition nev (es : list ev) : nat := length es.
Lemma nev_app a b : nev (a ++ b) = nev a + nev b.
Proof. apply app_length. Qed.

Section Descent.
  Context {C : Type}.
  Variable K : callbacks C.
  Variable lay : layout.
  Notation L := (layout_lits lay).

  Definition fire (e : ev) : cmd C unit :=
    match e with
    | EvBool b => k_boolean K b
    | EvNum z => k_number K z
    | EvStr s => k_string K s false
    | EvKey k => k_string K k true
    | EvArr => k_begin_array K
    | EvObj => k_begin_object K
    | EvEnd => k_end K
    end.
  Fixpoint play (es : list ev) : cmd C unit :=
    match es with
    | [] => cret tt
    | e :: es' => cbind (fire e) (fun _ => play es')
    end.
  Definition P {A} (es : list ev) (k : cmd C A) : cmd C A := cbind (play es) (fun _ => k).

  Lemma P_ext {A} es (k k' : cmd C A) : (forall c, k c = k' c) -> forall c, P es k c = P es k' c.
  Proof. intros H c. unfold P, cbind. destruct (play es c) as [c' []]; auto. Qed.
  Lemma play_app es es' c : play (es ++ es') c = P es (play es') c.
  Proof.
    revert c. induction es as [|e es IH]; intros c; [reflexivity|]. unfold P in *. cbn [app play]. unfold cbind in *.
    destruct (fire e c) as [c' []]; auto.
  Qed.
  Lemma P_P {A} es es' (k : cmd C A) c : P es (P es' k) c = P (es ++ es') k c.
  Proof. unfold P at 3. unfold cbind. rewrite play_app. unfold P, cbind. destruct (play es c) as [c' []]; reflexivity. Qed.
  Lemma seq_ret {A B} (m : cmd C A) es r (k : A -> cmd C B) : (forall c, m c = P es (cret r) c) -> forall c, cbind m k c = P es (k r) c.
  Proof. intros H c. unfold cbind at 1. rewrite H. unfold P, cbind, cret. destruct (play es c) as [c' []]; reflexivity. Qed.
  Lemma seq_throw {A B} (m : cmd C A) es x (k : A -> cmd C B) : (forall c, m c = P es (lift (Throw x)) c) -> forall c, cbind m k c = P es (lift (Throw x)) c.
  Proof. intros H c. unfold cbind at 1. rewrite H. unfold P, cbind, lift. destruct (play es c) as [c' []]; reflexivity. Qed.
  Lemma seq_fire {B} e (k : cmd C B) : forall c, cbind (fire e) (fun _ => k) c = P [e] k c.
  Proof. intros c. unfold P. cbn [play]. unfold cbind, cret. destruct (fire e c) as [c' []]; reflexivity. Qed.
  Lemma seq_lift {A B} a (k : A -> cmd C B) c : cbind (lift (Ret a)) k c = k a c.
  Proof. reflexivity. Qed.

  Notation fails msg := (lift (Throw (ParserError msg))).
  Definition PVs (pv : bytes -> cmd C bytes) (s : bytes) : Prop :=
    (exists a r, gval L s a r /\ forall c, pv s c = P (events a) (cret r) c) \/
    ((forall a r, ~ gval L s a r) /\ exists msg es a rest, events a = es ++ rest /\ rest <> [] /\ nev es <= length s /\ (In EvObj (events a) -> In x7b s) /\ forall c, pv s c = P es (fails msg) c).
  Definition PVn (n : nat) (pv : bytes -> cmd C bytes) : Prop := forall s, length s < n -> PVs pv s.

  Lemma gval_nev s a r : gval L s a r -> nev (events a) + length r <= length s.
  Proof.
    assert (B1 : forall l, nev (EvArr :: l) = S (nev l)) by reflexivity.
    assert (B3 : forall l, nev (EvObj :: l) = S (nev l)) by reflexivity.
    assert (B2 : forall k x, nev (member_events (k, x)) = S (nev (events x))) by reflexivity.
    revert s a r. apply (gval_ind2 L (fun s a r => nev (events a) + length r <= length s)
      (fun s l r => S (nev (flat_map events l)) + length r <= length s)
      (fun s l r => S (nev (flat_map member_events l)) + length r <= length s)); intros;
      cbn [events flat_map]; change (fun m : bytes * ast => EvKey (fst m) :: events (snd m)) with member_events;
      rewrite ?B1, ?B3, ?nev_app, ?B2, ?app_length in *; cbn [length] in *; rewrite ?app_length in *; cbn [length] in *;
      change (nev []) with 0; change (nev [EvEnd]) with 1;
      try (apply gnat_len in H0); try (apply gchars_len in H0); try (apply gkey_len in H); try (cbn; lia); try lia.
    destruct b; cbn; lia.
  Qed.

  Lemma drop_ws_incl s x : In x (drop_ws s) -> In x s.
  Proof. induction s as [|b s IH]; cbn [drop_ws]; [auto|]. destruct (wsb b); [right; auto|auto]. Qed.
  Lemma gchars_suffix s cs r : gchars s cs r -> incl r s.
  Proof. induction 1; intros x Hx; cbn [In]; auto 10. Qed.
  Lemma gval_suffix s a r : gval L s a r -> incl r s.
  Proof.
    revert s a r. apply (gval_ind2 L (fun s a r => incl r s) (fun s l r => incl r s) (fun s l r => incl r s)); intros; intros x Hx;
      repeat match goal with
      | H : gnat _ _ _ |- _ => destruct H
      | H : gchars _ _ _ |- _ => apply gchars_suffix in H; unfold incl in H
      | H : gkey _ _ _ |- _ => destruct H
      end; unfold incl in *; repeat (rewrite in_app_iff || cbn [In]); auto 6.
    all: repeat match goal with H : forall a, In a (_ ++ _) -> _ |- _ => setoid_rewrite in_app_iff in H; cbn [In] in H end; auto 10.
  Qed.
  Lemma gval_obj s a r : gval L s a r -> In EvObj (events a) -> In x7b s.
  Proof.
    assert (HS : forall s a w b r, gval L s a (w ++ b :: r) -> In x7b r -> In x7b s). { intros s0 a0 w b r0 Hg Hi. apply (gval_suffix _ _ _ Hg). apply in_or_app. right. now right. }
    revert s a r. apply (gval_ind2 L (fun s a r => In EvObj (events a) -> In x7b s) (fun s l r => In EvObj (flat_map events l) -> In x7b s) (fun s l r => True)); auto; intros; rewrite ?in_app_iff in *; cbn [events In flat_map] in *; auto.
    all: repeat match goal with H : _ \/ _ |- _ => destruct H end; try discriminate; try contradiction; rewrite ?in_app_iff in *; cbn [In] in *.
    all: repeat match goal with H : _ \/ _ |- _ => destruct H end; try discriminate; try contradiction; eauto 6.
  Qed.

  Section Loops.
    Variable n : nat.
    Variable pv : bytes -> cmd C bytes.
    Hypothesis Hpv : PVn n pv.

    Lemma kelems_ok f : forall s, length s < f -> length s < n ->
      (exists l r, gelems L s l r /\ forall c, cbind (kelems_loop pv f s) (fun s => lift (expect x5d no_bracket s)) c = P (flat_map events l) (cret r) c) \/
      ((forall l r, ~ gelems L s l r) /\ exists msg es l rest, flat_map events l = es ++ rest /\ nev es <= length s /\ (In EvObj (flat_map events l) -> In x7b s) /\
        forall c, cbind (kelems_loop pv f s) (fun s => lift (expect x5d no_bracket s)) c = P es (fails msg) c).
    Proof.
      induction f as [|f IH]; intros s Hf Hn; [lia|]. cbn [kelems_loop].
      destruct (Hpv s Hn) as [(a & r & Hg & Hp)|(Hno & msg & es & a & rest & He & _ & Hb & Ho & Hp)].
      2:{ right. split.
          - intros l r H. apply gelems_shape in H as (a' & s1 & l' & H & _). eapply Hno; eauto.
          - eexists _, es, [a], rest. cbn [flat_map]. rewrite app_nil_r. split; [exact He|]. split; [exact Hb|]. split; [exact Ho|].
            intros c. apply (seq_throw _ es). intros c'. apply (seq_throw _ es). exact Hp. }
      pose proof (gval_len _ _ _ _ Hg) as Hl. pose proof (drop_ws_length r) as Hd. pose proof (gval_nev _ _ _ Hg) as Hbg. pose proof (gval_obj _ _ _ Hg) as Hog. pose proof (gval_suffix _ _ _ Hg) as Hsf.
      set (k := fun (s1 : bytes) => cbind (lift (skip_ws s1)) (fun s2 => cbind (lift (have x2c s2)) (fun '(b, s3) => if b then kelems_loop pv f s3 else (cret s3 : cmd C bytes)))).
      change (cbind (pv s) (fun s1 => cbind (lift (skip_ws s1)) (fun s2 => cbind (lift (have x2c s2)) (fun '(b, s3) => if b then kelems_loop pv f s3 else cret s3)))) with (cbind (pv s) k).
      assert (Hk : forall (g : bytes -> cmd C bytes) c, cbind (cbind (pv s) k) g c = P (events a) (cbind (k r) g) c).
      { intros g c. unfold cbind at 1 2. rewrite Hp. unfold P, cbind, cret. destruct (play (events a) c) as [c' []]; reflexivity. }
      assert (Hkr : forall c, k r c = match drop_ws r with
                 | h :: t => if beqb h x2c then kelems_loop pv f t c else (c, Ret (drop_ws r))
                 | [] => (c, Ret []) end).
      { intros c. unfold k. rewrite skip_ws_eq, seq_lift. rewrite have_eq by discriminate. destruct (drop_ws r) as [|h t]; [reflexivity|]. destruct (beqb h x2c); reflexivity. }
      destruct (drop_ws r) as [|ch t] eqn:Et.
      { right. split.
        - intros l q H. apply gelems_shape in H as (a' & s1 & l' & H & _ & Ha). destruct (gval_det _ _ _ _ _ _ Hg H) as [<- <-]. rewrite Et in Ha. exact Ha.
        - eexists _, (events a), [a], []. cbn [flat_map]. rewrite !app_nil_r. split; [reflexivity|]. split; [lia|]. split; [exact Hog|]. intros c. rewrite Hk. apply P_ext. intros c'. unfold cbind. rewrite Hkr. reflexivity. }
      cbn [length] in Hd. destruct (beqb ch x2c) eqn:Ec.
      - destruct (IH t) as [(l & q & H1 & H2)|(H1 & msg & es & l & rest & H2 & H3 & Ho & H4)]; try lia.
        + left. exists (a :: l), q. split.
          * apply gelems_shape. exists a, r, l. splits; auto. rewrite Et. cbn. now rewrite Ec.
          * intros c. rewrite Hk. cbn [flat_map]. rewrite <- P_P. apply P_ext. intros c'. rewrite <- H2. unfold cbind. now rewrite Hkr.
        + right. split.
          * intros l' q H. apply gelems_shape in H as (a' & s1 & l2 & H & -> & Ha). destruct (gval_det _ _ _ _ _ _ Hg H) as [<- <-]. rewrite Et in Ha. cbn in Ha. rewrite Ec in Ha. eapply H1; eauto.
          * eexists _, (events a ++ es), (a :: l), rest. cbn [flat_map]. rewrite H2, app_assoc. split; [reflexivity|]. rewrite nev_app. split; [lia|]. rewrite <- app_assoc, <- H2. split; [intros Hi; apply in_app_or in Hi as [Hi|Hi]; [auto|]; apply Hsf, drop_ws_incl; rewrite Et; right; auto|].
            intros c. rewrite Hk, <- P_P. apply P_ext. intros c'. rewrite <- H4. unfold cbind. now rewrite Hkr.
      - destruct (beqb ch x5d) eqn:Ed.
        + left. exists [a], t. split.
          * apply gelems_shape. exists a, r, []. splits; auto. rewrite Et. cbn. rewrite Ec, Ed. auto.
          * intros c. rewrite Hk. cbn [flat_map]. rewrite app_nil_r. apply P_ext. intros c'. unfold cbind. rewrite Hkr. cbn [lift]. unfold lift. rewrite expect_eq by discriminate. now rewrite Ed.
        + right. split.
          * intros l q H. apply gelems_shape in H as (a' & s1 & l' & H & -> & Ha). destruct (gval_det _ _ _ _ _ _ Hg H) as [<- <-]. rewrite Et in Ha. cbn in Ha. rewrite Ec, Ed in Ha. exact Ha.
          * eexists _, (events a), [a], []. cbn [flat_map]. rewrite !app_nil_r. split; [reflexivity|]. split; [lia|]. split; [exact Hog|]. intros c. rewrite Hk. apply P_ext. intros c'. unfold cbind. rewrite Hkr. unfold lift. rewrite expect_eq by discriminate. now rewrite Ed.
    Qed.

    Definition key_part (s : bytes) : cmd C bytes :=
      cbind (kparse_string K true s) (fun '(b, s) => if b then cbind (lift (skip_ws s)) (fun s => lift (expect x3a no_colon s)) else fails no_key).
    Lemma kkey_ok s :
      (exists k s0, gkey s k s0 /\ forall c, key_part s c = P [EvKey k] (cret s0) c) \/
      ((forall k s0, ~ gkey s k s0) /\ exists msg es k, (es = [] \/ es = [EvKey k]) /\ nev es <= length s /\ forall c, key_part s c = P es (fails msg) c).
    Proof.
      unfold key_part, kparse_string. rewrite skip_ws_eq.
      assert (E1 : forall c, cbind (lift (Ret (drop_ws s))) (fun s : bytes => cbind (lift (have x22 s)) (fun '(b, s0) => if b then cbind (lift (string_loop (S (length s0)) s0 [])) (fun '(s1, str) => cbind (k_string K str true) (fun _ => cret (true, s1))) else (cret (false, s0) : cmd C (bool * bytes)))) c
        = match drop_ws s with h :: t => if beqb h x22 then cbind (lift (string_loop (S (length t)) t [])) (fun '(s1, str) => cbind (k_string K str true) (fun _ => cret (true, s1))) c else (c, Ret (false, drop_ws s)) | [] => (c, Ret (false, [])) end).
      { intros c. rewrite seq_lift, have_eq by discriminate. destruct (drop_ws s) as [|h t]; [reflexivity|]. destruct (beqb h x22); reflexivity. }
      destruct (drop_ws s) as [|ch t] eqn:Et.
      { right. split; [intros k s0 H; apply gkey_shape in H as (s1 & s2 & H & _); congruence|]. eexists _, [], []. split; [auto|]. split; [cbn; lia|]. intros c. unfold cbind at 1. rewrite E1. reflexivity. }
      destruct (beqb_spec ch x22) as [->|Hq].
      2:{ right. split; [intros k s0 H; apply gkey_shape in H as (s1 & s2 & H & _); congruence|]. eexists _, [], []. split; [auto|]. split; [cbn; lia|]. intros c. unfold cbind at 1. rewrite E1. reflexivity. }
      destruct (string_loop_ok (S (length t)) t []) as [(cs & r & Hg & Hs)|(Hno & msg & _ & Hs)]; [lia| |]; rewrite Hs in E1.
      2:{ right. split.
          - intros k s0 H. apply gkey_shape in H as (s1 & s2 & H & H2 & _). rewrite Et in H. injection H as <-. eapply Hno; eauto.
          - eexists _, [], []. split; [auto|]. split; [cbn; lia|]. intros c. unfold cbind at 1. rewrite E1. reflexivity. }
      cbn [app] in E1.
      assert (E2 : forall c, cbind (cbind (lift (Ret (x22 :: t))) (fun s : bytes => cbind (lift (have x22 s)) (fun '(b, s0) => if b then cbind (lift (string_loop (S (length s0)) s0 [])) (fun '(s1, str) => cbind (k_string K str true) (fun _ => cret (true, s1))) else (cret (false, s0) : cmd C (bool * bytes)))))
         (fun '(b, s) => if b then cbind (lift (skip_ws s)) (fun s => lift (expect x3a no_colon s)) else fails no_key) c = P [EvKey cs] (lift (expect x3a no_colon (drop_ws r))) c).
      { intros c. unfold cbind at 1. rewrite E1. rewrite seq_lift. rewrite <- seq_fire. cbn [fire]. unfold cbind, cret. destruct (k_string K cs true c) as [c' []]; try reflexivity. cbn [lift]. unfold lift. now rewrite skip_ws_eq. }
      rewrite expect_eq in E2 by discriminate. destruct (drop_ws r) as [|ch u] eqn:Eu.
      { right. split.
        - intros k s0 H. apply gkey_shape in H as (s1 & s2 & H & H2 & H3). rewrite Et in H. injection H as <-. destruct (gchars_det _ _ _ Hg _ _ H2) as [<- <-]. congruence.
        - eexists _, [EvKey cs], cs. split; [auto|]. split; [pose proof (drop_ws_length s) as Hdl; rewrite Et in Hdl; cbn in *; lia|]. intros c. apply E2. }
      destruct (beqb_spec ch x3a) as [->|Hc].
      - left. exists cs, u. split; [apply gkey_shape; eauto|]. intros c. apply E2.
      - right. split.
        + intros k s0 H. apply gkey_shape in H as (s1 & s2 & H & H2 & H3). rewrite Et in H. injection H as <-. destruct (gchars_det _ _ _ Hg _ _ H2) as [<- <-]. congruence.
        + eexists _, [EvKey cs], cs. split; [auto|]. split; [pose proof (drop_ws_length s) as Hdl; rewrite Et in Hdl; cbn in *; lia|]. intros c. apply E2.
    Qed.

    Lemma kmembers_ok f : forall s, length s < f -> length s < n ->
      (exists l r, gmembers L s l r /\ forall c, cbind (kmembers_loop K pv f s) (fun s => lift (expect x7d no_brace s)) c = P (flat_map member_events l) (cret r) c) \/
      ((forall l r, ~ gmembers L s l r) /\ exists msg es l rest, flat_map member_events l = es ++ rest /\ nev es <= length s /\
        forall c, cbind (kmembers_loop K pv f s) (fun s => lift (expect x7d no_brace s)) c = P es (fails msg) c).
    Proof.
      induction f as [|f IH]; intros s Hf Hn; [lia|]. cbn [kmembers_loop].
      set (k := fun (s1 : bytes) => cbind (lift (skip_ws s1)) (fun s2 => cbind (lift (have x2c s2)) (fun '(b, s3) => if b then kmembers_loop K pv f s3 else (cret s3 : cmd C bytes)))).
      assert (E0 : forall c, cbind (kparse_string K true s) (fun '(b, s0) => if b then cbind (lift (skip_ws s0)) (fun s1 => cbind (lift (expect x3a no_colon s1)) (fun s2 => cbind (pv s2) k)) else fails no_key) c = cbind (key_part s) (fun s2 => cbind (pv s2) k) c).
      { intros c. unfold key_part, cbind, lift. destruct (kparse_string K true s c) as [c' [[[] s0]| | | |]]; try reflexivity. destruct (skip_ws s0); reflexivity. }
      assert (E : forall g c, cbind (cbind (kparse_string K true s) (fun '(b, s0) => if b then cbind (lift (skip_ws s0)) (fun s1 => cbind (lift (expect x3a no_colon s1)) (fun s2 => cbind (pv s2) k)) else fails no_key)) g c = cbind (cbind (key_part s) (fun s2 => cbind (pv s2) k)) (g : bytes -> cmd C bytes) c).
      { intros g c. unfold cbind at 1. rewrite E0. reflexivity. }
      destruct (kkey_ok s) as [(key & s0 & Hk & Hp)|(Hno & msg & es & key & He & Hle & Hp)].
      2:{ right. split.
          - intros l r H. apply gmembers_shape in H as (k' & s1 & a & s2 & l' & H & _). eapply Hno; eauto.
          - eexists _, es, [(key, ABool true)], (if match es with [] => true | _ => false end then [EvKey key; EvBool true] else [EvBool true]). split; [destruct He as [-> | ->]; reflexivity|]. split; [exact Hle|].
            intros c. rewrite E. apply (seq_throw _ es). intros c'. apply (seq_throw _ es). exact Hp. }
      pose proof (gkey_len _ _ _ Hk) as Hlk.
      assert (E1 : forall g c, cbind (cbind (key_part s) (fun s2 => cbind (pv s2) k)) (g : bytes -> cmd C bytes) c = P [EvKey key] (cbind (cbind (pv s0) k) g) c).
      { intros g c. unfold cbind at 1 2. rewrite Hp. unfold P, cbind, cret. destruct (play [EvKey key] c) as [c' []]; reflexivity. }
      destruct (Hpv s0) as [(a & r & Hg & Hpa)|(Hno & msg & es & a & rest & He & _ & Hb & _ & Hpa)]; [lia| |].
      2:{ right. split.
          - intros l r H. apply gmembers_shape in H as (k' & s1 & a' & s2 & l' & H & H' & _). destruct (gkey_det _ _ _ _ _ Hk H) as [<- <-]. eapply Hno; eauto.
          - eexists _, (EvKey key :: es), [(key, a)], rest. cbn [flat_map member_events fst snd app]. unfold member_events. cbn [fst snd]. rewrite app_nil_r, He. split; [reflexivity|]. split; [change (nev (EvKey key :: es)) with (S (nev es)); lia|].
            intros c. rewrite E, E1. change (EvKey key :: es) with ([EvKey key] ++ es). rewrite <- P_P. apply P_ext. intros c'. apply (seq_throw _ es). intros c1. apply (seq_throw _ es). exact Hpa. }
      pose proof (gval_len _ _ _ _ Hg) as Hl. pose proof (drop_ws_length r) as Hd. pose proof (gval_nev _ _ _ Hg) as Hbg.
      assert (Hk2 : forall (g : bytes -> cmd C bytes) c, cbind (cbind (kparse_string K true s) (fun '(b, s0) => if b then cbind (lift (skip_ws s0)) (fun s1 => cbind (lift (expect x3a no_colon s1)) (fun s2 => cbind (pv s2) k)) else fails no_key)) g c = P (EvKey key :: events a) (cbind (k r) g) c).
      { intros g c. rewrite E, E1. change (EvKey key :: events a) with ([EvKey key] ++ events a). rewrite <- P_P. apply P_ext. intros c'. unfold cbind at 1 2. rewrite Hpa. unfold P, cbind, cret. destruct (play (events a) c') as [c2 []]; reflexivity. }
      assert (Hkr : forall c, k r c = match drop_ws r with
                 | h :: t => if beqb h x2c then kmembers_loop K pv f t c else (c, Ret (drop_ws r))
                 | [] => (c, Ret []) end).
      { intros c. unfold k. rewrite skip_ws_eq, seq_lift. rewrite have_eq by discriminate. destruct (drop_ws r) as [|h t]; [reflexivity|]. destruct (beqb h x2c); reflexivity. }
      change (fun s1 : bytes => cbind (lift (skip_ws s1)) (fun s2 : bytes => cbind (lift (expect x3a no_colon s2)) (fun s3 : bytes => cbind (pv s3) (fun s4 : bytes => cbind (lift (skip_ws s4)) (fun s5 : bytes => cbind (lift (have x2c s5)) (fun '(b, s6) => if b then kmembers_loop K pv f s6 else cret s6)))))) with (fun s1 : bytes => cbind (lift (skip_ws s1)) (fun s2 => cbind (lift (expect x3a no_colon s2)) (fun s3 => cbind (pv s3) k))) in *.
      assert (Hbb : nev (EvKey key :: events a) = S (nev (events a))) by reflexivity.
      destruct (drop_ws r) as [|ch t] eqn:Et.
      { right. split.
        - intros l q H. apply gmembers_shape in H as (k' & s0' & a' & s1 & l' & H & H' & -> & Ha). destruct (gkey_det _ _ _ _ _ Hk H) as [<- <-]. destruct (gval_det _ _ _ _ _ _ Hg H') as [<- <-]. rewrite Et in Ha. exact Ha.
        - eexists _, (EvKey key :: events a), [(key, a)], []. cbn [flat_map]. rewrite !app_nil_r. split; [reflexivity|]. split; [lia|]. intros c. rewrite Hk2. apply P_ext. intros c'. unfold cbind. rewrite Hkr. reflexivity. }
      cbn [length] in Hd. destruct (beqb ch x2c) eqn:Ec.
      - destruct (IH t) as [(l & q & H1 & H2)|(H1 & msg & es & l & rest & H2 & H3 & H4)]; try lia.
        + left. exists ((key, a) :: l), q. split.
          * apply gmembers_shape. exists key, s0, a, r, l. splits; auto. rewrite Et. cbn. now rewrite Ec.
          * intros c. rewrite Hk2. cbn [flat_map]. rewrite <- P_P. apply P_ext. intros c'. rewrite <- H2. unfold cbind. now rewrite Hkr.
        + right. split.
          * intros l' q H. apply gmembers_shape in H as (k' & s0' & a' & s1 & l2 & H & H' & -> & Ha). destruct (gkey_det _ _ _ _ _ Hk H) as [<- <-]. destruct (gval_det _ _ _ _ _ _ Hg H') as [<- <-]. rewrite Et in Ha. cbn in Ha. rewrite Ec in Ha. eapply H1; eauto.
          * eexists _, ((EvKey key :: events a) ++ es), ((key, a) :: l), rest. cbn [flat_map]. rewrite H2, app_assoc. split; [reflexivity|]. rewrite nev_app. split; [lia|].
            intros c. rewrite Hk2, <- P_P. apply P_ext. intros c'. rewrite <- H4. unfold cbind. now rewrite Hkr.
      - destruct (beqb ch x7d) eqn:Ed.
        + left. exists [(key, a)], t. split.
          * apply gmembers_shape. exists key, s0, a, r, []. splits; auto. rewrite Et. cbn. rewrite Ec, Ed. auto.
          * intros c. rewrite Hk2. cbn [flat_map]. rewrite app_nil_r. apply P_ext. intros c'. unfold cbind. rewrite Hkr. unfold lift. rewrite expect_eq by discriminate. now rewrite Ed.
        + right. split.
          * intros l q H. apply gmembers_shape in H as (k' & s0' & a' & s1 & l2 & H & H' & -> & Ha). destruct (gkey_det _ _ _ _ _ Hk H) as [<- <-]. destruct (gval_det _ _ _ _ _ _ Hg H') as [<- <-]. rewrite Et in Ha. cbn in Ha. rewrite Ec, Ed in Ha. exact Ha.
          * eexists _, (EvKey key :: events a), [(key, a)], []. cbn [flat_map]. rewrite !app_nil_r. split; [reflexivity|]. split; [lia|]. intros c. rewrite Hk2. apply P_ext. intros c'. unfold cbind. rewrite Hkr. unfold lift. rewrite expect_eq by discriminate. now rewrite Ed.
    Qed.
  End Loops.

  Ltac nogval Hd := let H := fresh "H" in intros ? ? H; apply gval_core in H; rewrite Hd in H; cbn [core] in H;
    repeat match type of H with context [beqb ?c ?x] => (rewrite beqb_refl in H || (rewrite (beqb_neq c x) in H by (congruence || discriminate))) end.

  (** one alternative of parse_value that does not apply *)
  Lemma skip_alt {A} (m : cmd C (bool * bytes)) t (k : bytes -> cmd C A) d : (forall c, m c = (c, Ret (false, t))) ->
    forall c, cbind m (fun '(b, s) => if b then d s else k s) c = k t c.
  Proof. intros H c. unfold cbind. now rewrite H. Qed.
  Lemma take_alt (m : cmd C (bool * bytes)) es r (k : bytes -> cmd C bytes) : (forall c, m c = P es (cret (true, r)) c) ->
    forall c, cbind m (fun '(b, s) => if b then cret s else k s) c = P es (cret r) c.
  Proof. intros H c. apply (seq_ret m es (true, r) (fun '(b, s) => if b then cret s else k s) H). Qed.
  Lemma fail_alt (m : cmd C (bool * bytes)) es msg (k : bytes -> cmd C bytes) : (forall c, m c = P es (fails msg) c) ->
    forall c, cbind m (fun '(b, s) => if b then cret s else k s) c = P es (fails msg) c.
  Proof. intros H c. now apply seq_throw. Qed.

  Definition ends (m : cmd C bytes) : cmd C (bool * bytes) := cbind m (fun s => cbind (k_end K) (fun _ => cret (true, s))).
  Lemma bind_ext {A B} (m : cmd C A) (k k' : A -> cmd C B) c : (forall a c', k a c' = k' a c') -> cbind m k c = cbind m k' c.
  Proof. intros H. unfold cbind. destruct (m c) as [c' []]; auto. Qed.
  Lemma kobj_eq pv s c : kparse_object K pv s c =
    match drop_ws s with
    | h :: t =>
        if beqb h x7b then
          P [EvObj] (match drop_ws t with
                     | h2 :: u => if beqb h2 x7d then P [EvEnd] (cret (true, u))
                                  else ends (cbind (kmembers_loop K pv (S (length (drop_ws t))) (drop_ws t)) (fun s => lift (expect x7d no_brace s)))
                     | [] => ends (cbind (kmembers_loop K pv 1 []) (fun s => lift (expect x7d no_brace s)))
                     end) c
        else (c, Ret (false, drop_ws s))
    | [] => (c, Ret (false, []))
    end.
  Proof.
    unfold kparse_object. rewrite skip_ws_eq, seq_lift, have_eq by discriminate. destruct (drop_ws s) as [|h t]; [reflexivity|].
    destruct (beqb h x7b); [|reflexivity]. rewrite seq_lift. rewrite <- seq_fire. cbn [fire]. apply bind_ext. intros _ c'. rewrite skip_ws_eq, seq_lift, have_eq by discriminate. destruct (drop_ws t) as [|h2 u].
    - rewrite seq_lift. unfold ends, cbind. destruct (kmembers_loop K pv _ _ c') as [c2 []]; reflexivity.
    - destruct (beqb h2 x7d); rewrite seq_lift.
      + rewrite <- seq_fire. reflexivity.
      + unfold ends, cbind. destruct (kmembers_loop K pv _ _ c') as [c2 []]; reflexivity.
  Qed.
  Lemma karr_eq pv s c : kparse_array K pv s c =
    match drop_ws s with
    | h :: t =>
        if beqb h x5b then
          P [EvArr] (match drop_ws t with
                     | h2 :: u => if beqb h2 x5d then P [EvEnd] (cret (true, u))
                                  else ends (cbind (kelems_loop pv (S (length (drop_ws t))) (drop_ws t)) (fun s => lift (expect x5d no_bracket s)))
                     | [] => ends (cbind (kelems_loop pv 1 []) (fun s => lift (expect x5d no_bracket s)))
                     end) c
        else (c, Ret (false, drop_ws s))
    | [] => (c, Ret (false, []))
    end.
  Proof.
    unfold kparse_array. rewrite skip_ws_eq, seq_lift, have_eq by discriminate. destruct (drop_ws s) as [|h t]; [reflexivity|].
    destruct (beqb h x5b); [|reflexivity]. rewrite seq_lift. rewrite <- seq_fire. cbn [fire]. apply bind_ext. intros _ c'. rewrite skip_ws_eq, seq_lift, have_eq by discriminate. destruct (drop_ws t) as [|h2 u].
    - rewrite seq_lift. unfold ends, cbind. destruct (kelems_loop pv _ _ c') as [c2 []]; reflexivity.
    - destruct (beqb h2 x5d); rewrite seq_lift.
      + rewrite <- seq_fire. reflexivity.
      + unfold ends, cbind. destruct (kelems_loop pv _ _ c') as [c2 []]; reflexivity.
  Qed.
  Lemma ends_ok m es r : (forall c, m c = P es (cret r) c) -> forall c, ends m c = P (es ++ [EvEnd]) (cret (true, r)) c.
  Proof.
    intros H c. unfold ends. rewrite (seq_ret m es r _ H c). rewrite <- P_P. apply P_ext. intros c'. apply (seq_fire EvEnd).
  Qed.
  Lemma kstr_eq s c : kparse_string K false s c =
    match drop_ws s with
    | h :: t => if beqb h x22 then cbind (lift (string_loop (S (length t)) t [])) (fun '(s1, str) => P [EvStr str] (cret (true, s1))) c
                else (c, Ret (false, drop_ws s))
    | [] => (c, Ret (false, []))
    end.
  Proof.
    unfold kparse_string. rewrite skip_ws_eq, seq_lift, have_eq by discriminate. destruct (drop_ws s) as [|h t]; [reflexivity|].
    destruct (beqb h x22); [|reflexivity]. rewrite seq_lift. destruct (string_loop _ t []) as [[s1 str]| | | |]; try reflexivity. rewrite !seq_lift. cbv beta iota. rewrite <- seq_fire. reflexivity.
  Qed.
  Lemma kbool_eq s c : kparse_boolean K lay s c =
    match drop_ws s with
    | h :: t => if beqb h x74 then cbind (lift (expect_pat (a_end lay) (a_rue lay) [x72; x75; x65] no_true t)) (fun s => P [EvBool true] (cret (true, s))) c
                else if beqb h x66 then cbind (lift (expect_pat (a_end lay) (a_alse lay) [x61; x6c; x73; x65] no_false t)) (fun s => P [EvBool false] (cret (true, s))) c
                else (c, Ret (false, drop_ws s))
    | [] => (c, Ret (false, []))
    end.
  Proof.
    unfold kparse_boolean. rewrite skip_ws_eq, seq_lift, have_eq by discriminate. destruct (drop_ws s) as [|h t].
    - rewrite seq_lift, have_eq by discriminate. reflexivity.
    - destruct (beqb h x74); rewrite seq_lift.
      + destruct (expect_pat _ _ _ _ t); try reflexivity. rewrite !seq_lift, <- seq_fire. reflexivity.
      + rewrite have_eq by discriminate. destruct (beqb h x66); rewrite seq_lift; [|reflexivity]. destruct (expect_pat _ _ _ _ t); try reflexivity. rewrite !seq_lift, <- seq_fire. reflexivity.
  Qed.
  Lemma knum_eq s c : kparse_number K s c =
    match drop_ws s with
    | h :: t => if beqb h x2d
                then cbind (lift (scan_nat t [x2d])) (fun '(ok, s, str) => if ok : bool then P [EvNum (s256_of_string str)] (cret (true, s)) else fails no_digits) c
                else cbind (lift (scan_nat (h :: t) [])) (fun '(ok, s, str) => if ok : bool then P [EvNum (s256_of_string str)] (cret (true, s)) else cret (false, s)) c
    | [] => (c, Ret (false, []))
    end.
  Proof.
    assert (Hsc : forall s buf (k : bool * bytes * bytes -> cmd C (bool * bytes)) c,
      cbind (lift (have_if (fun h => beqb h x30) s buf)) (fun '(zero, s, str) => cbind (lift (if zero : bool then Ret (true, s, str) else parse_int_part s str)) k) c = cbind (lift (scan_nat s buf)) k c).
    { intros s' buf k c'. unfold scan_nat. destruct (have_if (fun h => beqb h x30) s' buf) as [[[z s2] b2]| | | |]; try reflexivity. }
    unfold kparse_number. rewrite skip_ws_eq, seq_lift, have_if_eq by reflexivity. destruct (drop_ws s) as [|h t].
    - rewrite seq_lift, Hsc. reflexivity.
    - destruct (beqb_spec h x2d) as [->|_]; rewrite seq_lift, Hsc; cbn [app]; (destruct (scan_nat _ _) as [[[[] s2] b2]| | | |]; try reflexivity; rewrite !seq_lift; cbv beta iota; rewrite <- seq_fire; reflexivity).
  Qed.

  Lemma kparse_value_ok f : PVn f (kparse_value K lay f).
  Proof.
    induction f as [|f IH]; intros s Hs; [lia|]. pose proof (drop_ws_length s) as Hl. unfold PVs.
    destruct (drop_ws s) as [|ch t] eqn:Ed.
    { right. split; [nogval Ed; auto|]. eexists _, [], (ABool true), [EvBool true]. split; [reflexivity|]. split; [discriminate|]. split; [cbn; lia|]. split; [intros [Hi|[]]; discriminate|]. intros c. cbn [kparse_value].
      rewrite (skip_alt _ []) by (intros; now rewrite kobj_eq, Ed). rewrite (skip_alt _ []) by (intros; now rewrite karr_eq). rewrite (skip_alt _ []) by (intros; now rewrite kstr_eq).
      rewrite (skip_alt _ []) by (intros; now rewrite kbool_eq). rewrite (skip_alt _ []) by (intros; now rewrite knum_eq). reflexivity. }
    cbn [length] in Hl.
    assert (Hws : drop_ws (ch :: t) = ch :: t) by (rewrite <- Ed; apply drop_ws_idem).
    destruct (beqb_spec ch x7b) as [->|N1].
    { pose proof (drop_ws_length t) as Hl2. assert (Hob : In x7b s) by (apply drop_ws_incl; rewrite Ed; now left).
      assert (E0 : forall c, kparse_object K (kparse_value K lay f) s c = P [EvObj] (match drop_ws t with
                     | h2 :: u => if beqb h2 x7d then P [EvEnd] (cret (true, u))
                                  else ends (cbind (kmembers_loop K (kparse_value K lay f) (S (length (drop_ws t))) (drop_ws t)) (fun s => lift (expect x7d no_brace s)))
                     | [] => ends (cbind (kmembers_loop K (kparse_value K lay f) 1 []) (fun s => lift (expect x7d no_brace s)))
                     end) c) by (intros c; rewrite kobj_eq, Ed; reflexivity).
      cbn [kparse_value].
      destruct (drop_ws t) as [|ch2 u] eqn:E2.
      { right. split.
        - nogval Ed. destruct H as [(s' & H & _)|(ms & _ & H)]; [congruence|]. apply gmembers_shape in H as (k & s0 & a' & s1 & l' & H & _). apply gkey_shape in H as (s3 & s2 & H & _). congruence.
        - eexists _, [EvObj], (AObj []), [EvEnd]. split; [reflexivity|]. split; [discriminate|]. split; [cbn; lia|]. split; [intros _; exact Hob|]. apply fail_alt. intros c. rewrite E0. apply P_ext. intros c'.
          cbn [kmembers_loop]. unfold kparse_string. unfold ends, cbind, lift. rewrite skip_ws_eq. cbn [drop_ws]. rewrite have_eq by discriminate. reflexivity. }
      destruct (beqb_spec ch2 x7d) as [->|N2].
      { left. exists (AObj []), u. split; [apply core_gval; rewrite Ed; cbn; left; eauto|]. apply take_alt. intros c. rewrite E0. now rewrite P_P. }
      cbn [length] in Hl2.
      destruct (kmembers_ok f _ IH (S (length (ch2 :: u))) (ch2 :: u)) as [(ms & r & H1 & H2)|(H1 & msg & es & ms & rest & H2 & H3 & H4)]; try (cbn [length]; lia).
      - left. exists (AObj ms), r. split.
        + apply core_gval. rewrite Ed. cbn. right. exists ms. split; auto.
          apply gmembers_shape. apply gmembers_shape in H1 as (k & s0 & a & s1 & l' & Hk & H1). exists k, s0, a, s1, l'. split; auto.
          apply gkey_shape. apply gkey_shape in Hk as (q1 & q2 & Hk & Hk2). exists q1, q2. split; auto. rewrite E2.
          rewrite <- E2 in Hk. rewrite drop_ws_idem in Hk. rewrite E2 in Hk. exact Hk.
        + apply take_alt. intros c. rewrite E0. etransitivity; [|exact (P_P [EvObj] _ _ _)]. apply P_ext. now apply ends_ok.
      - right. split.
        + nogval Ed. destruct H as [(s' & H & _)|(ms' & _ & H)]; [congruence|]. apply (H1 ms' r).
          apply gmembers_shape. apply gmembers_shape in H as (k & s0 & a' & s1 & l' & Hk & H). exists k, s0, a', s1, l'. split; auto.
          apply gkey_shape. apply gkey_shape in Hk as (q1 & q2 & Hk & Hk2). exists q1, q2. split; auto. rewrite <- E2. rewrite drop_ws_idem. exact Hk.
        + eexists _, (EvObj :: es), (AObj ms), (rest ++ [EvEnd]). cbn [events]. fold member_events. change (fun m : bytes * ast => EvKey (fst m) :: events (snd m)) with member_events. rewrite H2, <- app_assoc. split; [reflexivity|]. split; [intros En; apply app_eq_nil in En as [_ En]; discriminate|].
          cbn [length] in H3. split; [change (nev (EvObj :: es)) with (S (nev es)); lia|]. split; [intros _; exact Hob|].
          apply fail_alt. intros c. rewrite E0. etransitivity; [|exact (P_P [EvObj] _ _ _)]. apply P_ext. unfold ends. now apply seq_throw. }
    assert (S0 : forall (d k : bytes -> cmd C bytes) c, cbind (kparse_object K (kparse_value K lay f) s) (fun '(b, s) => if b then d s else k s) c = k (ch :: t) c).
    { intros d k c. apply skip_alt. intros c'. rewrite kobj_eq, Ed. now rewrite beqb_neq by auto. }
    destruct (beqb_spec ch x5b) as [->|N2].
    { pose proof (drop_ws_length t) as Hl2.
      assert (E0 : forall c, kparse_array K (kparse_value K lay f) (x5b :: t) c = P [EvArr] (match drop_ws t with
                     | h2 :: u => if beqb h2 x5d then P [EvEnd] (cret (true, u))
                                  else ends (cbind (kelems_loop (kparse_value K lay f) (S (length (drop_ws t))) (drop_ws t)) (fun s => lift (expect x5d no_bracket s)))
                     | [] => ends (cbind (kelems_loop (kparse_value K lay f) 1 []) (fun s => lift (expect x5d no_bracket s)))
                     end) c) by (intros c; rewrite karr_eq, Hws; reflexivity).
      cbn [kparse_value].
      destruct (drop_ws t) as [|ch2 u] eqn:E2.
      { right. split.
        - nogval Ed. destruct H as [(s' & H & _)|(ms & _ & H)]; [congruence|]. apply gelems_shape in H as (a' & s1 & l' & H & _). apply gval_core in H. rewrite E2 in H. exact H.
        - assert (Hf0 : 0 < f) by lia. destruct (IH [] Hf0) as [(a & r & Hg & _)|(_ & msg & es & a & rest & He & Hne & Hb & Ho & Hp)]; [apply gval_core in Hg; destruct Hg|].
          eexists _, (EvArr :: es), (AArr [a]), (rest ++ [EvEnd]). cbn [events flat_map]. rewrite app_nil_r, He, <- app_assoc. split; [reflexivity|]. split; [intros En; apply app_eq_nil in En as [_ En]; discriminate|]. split; [change (nev (EvArr :: es)) with (S (nev es)); cbn [length] in Hb; lia|].
          rewrite app_assoc, <- He. split; [intros [Hi|Hi]; [discriminate|]; apply in_app_or in Hi as [Hi|[Hi|[]]]; [destruct (Ho Hi)|discriminate]|].
          intros c. rewrite S0. revert c. apply fail_alt. intros c. rewrite E0. etransitivity; [|exact (P_P [EvArr] _ _ _)]. apply P_ext. intros c'.
          unfold ends. apply seq_throw. intros c1. apply seq_throw. intros c2. cbn [kelems_loop]. now apply seq_throw. }
      destruct (beqb_spec ch2 x5d) as [->|N3].
      { left. exists (AArr []), u. split; [apply core_gval; rewrite Ed; cbn; left; eauto|]. intros c. rewrite S0. revert c. apply take_alt. intros c. rewrite E0. now rewrite P_P. }
      cbn [length] in Hl2.
      assert (Hge : forall l r, gelems L t l r <-> gelems L (ch2 :: u) l r).
      { intros l r. rewrite !gelems_shape. rewrite <- E2.
        split; intros (a & s1 & l' & Hv & Hrest); exists a, s1, l'; (split; [|exact Hrest]); apply core_gval; apply gval_core in Hv.
        - rewrite drop_ws_idem. exact Hv.
        - rewrite drop_ws_idem in Hv. exact Hv. }
      destruct (kelems_ok f _ IH (S (length (ch2 :: u))) (ch2 :: u)) as [(l & r & H1 & H2)|(H1 & msg & es & l & rest & H2 & H3 & Ho & H4)]; try (cbn [length]; lia).
      - left. exists (AArr l), r. split.
        + apply core_gval. rewrite Ed. cbn. right. exists l. split; auto. now apply Hge.
        + intros c. rewrite S0. revert c. apply take_alt. intros c. rewrite E0. etransitivity; [|exact (P_P [EvArr] _ _ _)]. apply P_ext. now apply ends_ok.
      - right. split.
        + nogval Ed. destruct H as [(s' & H & _)|(l' & _ & H)]; [congruence|]. apply (H1 l' r). now apply Hge.
        + eexists _, (EvArr :: es), (AArr l), (rest ++ [EvEnd]). cbn [events]. rewrite H2, <- app_assoc. split; [reflexivity|]. split; [intros En; apply app_eq_nil in En as [_ En]; discriminate|].
          cbn [length] in H3. split; [change (nev (EvArr :: es)) with (S (nev es)); lia|].
          rewrite app_assoc, <- H2. split; [intros [Hi|Hi]; [discriminate|]; apply in_app_or in Hi as [Hi|[Hi|[]]]; [|discriminate]; apply Ho in Hi; rewrite <- E2 in Hi; apply drop_ws_incl in Hi; apply drop_ws_incl; rewrite Ed; now right|].
          intros c. rewrite S0. revert c. apply fail_alt. intros c. rewrite E0. etransitivity; [|exact (P_P [EvArr] _ _ _)]. apply P_ext. unfold ends. now apply seq_throw. }
    assert (S1 : forall (d k : bytes -> cmd C bytes) c, cbind (kparse_array K (kparse_value K lay f) (ch :: t)) (fun '(b, s) => if b then d s else k s) c = k (ch :: t) c).
    { intros d k c. apply skip_alt. intros c'. rewrite karr_eq, Hws. now rewrite beqb_neq by auto. }
    cbn [kparse_value].
    destruct (beqb_spec ch x22) as [->|N3].
    { destruct (string_loop_ok (S (length t)) t []) as [(cs & r & Hg & Hsl)|(Hno & msg & _ & Hsl)]; [lia| |].
      - left. exists (AStr cs), r. split; [apply core_gval; rewrite Ed; cbn; eauto|]. intros c. rewrite S0, S1. revert c. apply take_alt. intros c. rewrite kstr_eq, Hws. cbn [app] in Hsl. rewrite beqb_refl, Hsl. reflexivity.
      - right. split; [nogval Ed; destruct H as (cs & _ & H); eapply Hno; eauto|]. eexists _, [], (ABool true), [EvBool true]. split; [reflexivity|]. split; [discriminate|]. split; [cbn; lia|]. split; [intros [Hi|[]]; discriminate|].
        intros c. rewrite S0, S1. revert c. apply fail_alt. intros c. rewrite kstr_eq, Hws. rewrite beqb_refl, Hsl. reflexivity. }
    assert (S2 : forall (d k : bytes -> cmd C bytes) c, cbind (kparse_string K false (ch :: t)) (fun '(b, s) => if b then d s else k s) c = k (ch :: t) c).
    { intros d k c. apply skip_alt. intros c'. rewrite kstr_eq, Hws. now rewrite beqb_neq by auto. }
    destruct (beqb_spec ch x74) as [->|N4].
    { destruct (expect_pat_ok (a_end lay) (a_rue lay) [x72; x75; x65] no_true t) as [(r & Ha & -> & Hx)|(Hno & Hx)].
      { repeat constructor; discriminate. }
      { cbn. lia. }
      - left. exists (ABool true), r. split; [apply core_gval; rewrite Ed; cbn; auto|]. intros c. rewrite S0, S1, S2. revert c. apply take_alt. intros c. rewrite kbool_eq, Hws. rewrite beqb_refl, Hx. reflexivity.
      - right. split; [nogval Ed; destruct H as (HL & Ht & _); destruct Hno as [Hno|Hno]; [cbn in HL, Hno; congruence|eapply Hno; eauto]|].
        eexists _, [], (ABool true), [EvBool true]. split; [reflexivity|]. split; [discriminate|]. split; [cbn; lia|]. split; [intros [Hi|[]]; discriminate|]. intros c. rewrite S0, S1, S2. revert c. apply fail_alt. intros c. rewrite kbool_eq, Hws. rewrite beqb_refl, Hx. reflexivity. }
    destruct (beqb_spec ch x66) as [->|N5].
    { destruct (expect_pat_ok (a_end lay) (a_alse lay) [x61; x6c; x73; x65] no_false t) as [(r & Ha & -> & Hx)|(Hno & Hx)].
      { repeat constructor; discriminate. }
      { cbn. lia. }
      - left. exists (ABool false), r. split; [apply core_gval; rewrite Ed; cbn; auto|]. intros c. rewrite S0, S1, S2. revert c. apply take_alt. intros c. rewrite kbool_eq, Hws. rewrite beqb_refl, Hx. reflexivity.
      - right. split; [nogval Ed; destruct H as (HL & Ht & _); destruct Hno as [Hno|Hno]; [cbn in HL, Hno; congruence|eapply Hno; eauto]|].
        eexists _, [], (ABool true), [EvBool true]. split; [reflexivity|]. split; [discriminate|]. split; [cbn; lia|]. split; [intros [Hi|[]]; discriminate|]. intros c. rewrite S0, S1, S2. revert c. apply fail_alt. intros c. rewrite kbool_eq, Hws. rewrite beqb_refl, Hx. reflexivity. }
    assert (S3 : forall (d k : bytes -> cmd C bytes) c, cbind (kparse_boolean K lay (ch :: t)) (fun '(b, s) => if b then d s else k s) c = k (ch :: t) c).
    { intros d k c. apply skip_alt. intros c'. rewrite kbool_eq, Hws. now rewrite !beqb_neq by auto. }
    destruct (beqb_spec ch x2d) as [->|N6].
    { destruct (scan_nat_ok t [x2d]) as [(tx & r & Ht & Hx)|(Hno & Hx)].
      - left. exists (AInt (- Z.of_N (decimal tx))), r. split; [apply core_gval; rewrite Ed; cbn; eexists; split; [reflexivity|]; now apply nat_text_gnat|].
        intros c. rewrite S0, S1, S2, S3. revert c. apply take_alt. intros c. rewrite knum_eq, Hws. rewrite beqb_refl, Hx. cbn [app events]. rewrite <- s256_neg. reflexivity.
      - right. split; [nogval Ed; destruct H as (m & _ & H); eapply Hno; eauto|]. eexists _, [], (ABool true), [EvBool true]. split; [reflexivity|]. split; [discriminate|]. split; [cbn; lia|]. split; [intros [Hi|[]]; discriminate|].
        intros c. rewrite S0, S1, S2, S3. revert c. apply fail_alt. intros c. rewrite knum_eq, Hws. rewrite beqb_refl, Hx. reflexivity. }
    destruct (scan_nat_ok (ch :: t) []) as [(tx & r & Ht & Hx)|(Hno & Hx)].
    - left. exists (AInt (Z.of_N (decimal tx))), r. split; [apply core_gval; rewrite Ed; cbn; rewrite !beqb_neq by auto; eexists; split; [reflexivity|]; now apply nat_text_gnat|].
      intros c. rewrite S0, S1, S2, S3. revert c. apply take_alt. intros c. rewrite knum_eq, Hws. rewrite beqb_neq by auto. rewrite Hx. cbn [app events]. rewrite <- (s256_pos _ _ _ Ht). reflexivity.
    - right. split; [nogval Ed; destruct H as (m & _ & H); eapply Hno; eauto|]. eexists _, [], (ABool true), [EvBool true]. split; [reflexivity|]. split; [discriminate|]. split; [cbn; lia|]. split; [intros [Hi|[]]; discriminate|].
      intros c. rewrite S0, S1, S2, S3. rewrite (skip_alt _ (ch :: t)); [reflexivity|]. intros c'. rewrite knum_eq, Hws. rewrite beqb_neq by auto. rewrite Hx. reflexivity.
  Qed.

  (** what the constructor of Parser does to the callbacks *)
  Theorem kparse_ok s :
    (exists a r, gval L s a r /\ nev (events a) <= length s /\ forall c c', play (events a) c = (c', Ret tt) -> kparse K lay s c = (c', Ret true)) \/
    ((forall a r, ~ gval L s a r) /\ exists es a rest, events a = es ++ rest /\ rest <> [] /\ nev es <= length s /\
      forall c c', play es c = (c', Ret tt) -> kparse K lay s c = (c', Ret false)).
  Proof.
    destruct (kparse_value_ok (S (length s)) s ltac:(lia)) as [(a & r & Hg & Hp)|(Hno & msg & es & a & rest & He & Hne & Hb & Ho & Hp)].
    - left. exists a, r. pose proof (gval_nev _ _ _ Hg). split; [exact Hg|]. split; [lia|]. intros c c' H1. unfold kparse. rewrite Hp. unfold P, cbind. rewrite H1. reflexivity.
    - right. split; [exact Hno|]. exists es, a, rest. split; [exact He|]. split; [exact Hne|]. split; [exact Hb|]. intros c c' H1. unfold kparse. rewrite Hp. unfold P, cbind. rewrite H1. reflexivity.
  Qed.
End Descent.

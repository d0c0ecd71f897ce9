(** More for C99: different paths lead to different ranges. *)
From Verif Require Import Base JsonSpec JsonModel JsonDenotes EniModel JsonExSpec JsonExModel JsonExProof JsonExProof2 JsonExProof3 JsonChainSpec JsonChainProof.
From Coq Require Import List Arith NArith ZArith Bool Lia.
From Coq.Init Require Import Byte.
Import ListNotations.
Local Open Scope Z_scope.

Lemma ielems_from p s l r : ielems p s l r -> forall it, In it l -> p <= begin_of it.
Proof.
  induction 1 as [p s it w r H Hw|p s it w s' l r H Hw H' IH]; intros x.
  - intros [<-|[]]. pose proof (head_range _ _ _ _ H). lia.
  - pose proof (head_range _ _ _ _ H) as R. rewrite len_app, len_cons in R. pose proof (len_pos w). intros [<-|Hi]; [lia|]. specialize (IH x Hi). lia.
Qed.
Lemma ielems_sorted p s l r : ielems p s l r -> forall i j x y, nth_error l i = Some x -> nth_error l j = Some y -> (i < j)%nat -> end_of x <= begin_of y.
Proof.
  induction 1 as [p s it w r H Hw|p s it w s' l r H Hw H' IH]; intros i j x y Hx Hy Hij.
  - destruct j as [|[|j]]; try lia; discriminate Hy.
  - destruct j as [|j]; [lia|]. cbn [nth_error] in Hy. destruct i as [|i].
    + injection Hx as <-. pose proof (head_range _ _ _ _ H) as R. rewrite len_app, len_cons in R. pose proof (len_pos w). pose proof (ielems_from _ _ _ _ H' y (nth_error_In _ _ Hy)). lia.
    + cbn [nth_error] in Hx. apply (IH i j x y Hx Hy). lia.
Qed.

Lemma imembers_from p s ms r : imembers p s ms r -> forall m, In m ms -> p <= begin_of (snd m).
Proof.
  induction 1 as [p w t k w' s it w'' r Hw Hk Hw' H Hw''|p w t k w' s it w'' s' ms r Hw Hk Hw' H Hw'' H' IH]; intros m.
  - pose proof (head_range _ _ _ _ H) as R. pose proof (len_pos w). pose proof (len_pos w'). pose proof (len_pos t). intros [<-|[]]. cbn [snd]. lia.
  - pose proof (head_range _ _ _ _ H) as R. rewrite len_app, len_cons in R. pose proof (len_pos w). pose proof (len_pos w'). pose proof (len_pos t). pose proof (len_pos w''). intros [<-|Hi]; [cbn [snd]; lia|]. specialize (IH m Hi). lia.
Qed.
Lemma imembers_sorted p s ms r : imembers p s ms r -> forall i j x y, nth_error ms i = Some x -> nth_error ms j = Some y -> (i < j)%nat -> end_of (snd x) <= begin_of (snd y).
Proof.
  induction 1 as [p w t k w' s it w'' r Hw Hk Hw' H Hw''|p w t k w' s it w'' s' ms r Hw Hk Hw' H Hw'' H' IH]; intros i j x y Hx Hy Hij.
  - destruct j as [|[|j]]; try lia; discriminate Hy.
  - destruct j as [|j]; [lia|]. cbn [nth_error] in Hy. destruct i as [|i].
    + injection Hx as <-. cbn [snd]. pose proof (head_range _ _ _ _ H) as R. rewrite len_app, len_cons in R. pose proof (len_pos w''). pose proof (imembers_from _ _ _ _ H' y (nth_error_In _ _ Hy)). lia.
    + cbn [nth_error] in Hx. apply (IH i j x y Hx Hy). lia.
Qed.

Lemma elements_apart data b e l lb le i j x y : document data b e (Arr l lb le) -> nth_error l i = Some x -> nth_error l j = Some y -> i <> j -> end_of x <= begin_of y \/ end_of y <= begin_of x.
Proof.
  intros (pre & s & w & post & -> & -> & -> & H & Hw) Hx Hy Hn. inversion H; subst; [destruct i; discriminate Hx|].
  destruct (lt_dec i j) as [L|L]; [left|right]; eapply ielems_sorted; eauto; lia.
Qed.
Lemma last_member_nth k ms it : last_member k ms = Some it -> exists i r, nth_error ms i = Some (k, r, it).
Proof.
  induction ms as [|[[k' r] v] ms IH]; cbn [last_member]; [discriminate|]. destruct (last_member k ms) as [it'|].
  - intros E. destruct (IH E) as (i & r' & E'). now exists (S i), r'.
  - destruct (bytes_eqb_spec k' k) as [->|]; [|discriminate]. intros E. injection E as ->. now exists O, r.
Qed.
Lemma members_apart data b e ms ob oe k1 k2 x y : document data b e (Obj ms ob oe) -> last_member k1 ms = Some x -> last_member k2 ms = Some y -> k1 <> k2 -> end_of x <= begin_of y \/ end_of y <= begin_of x.
Proof.
  intros (pre & s & w & post & -> & -> & -> & H & Hw) Hx Hy Hn. inversion H; subst; [discriminate Hx|].
  apply last_member_nth in Hx as (i & r1 & Hx). apply last_member_nth in Hy as (j & r2 & Hy).
  assert (i <> j) by (intros ->; rewrite Hx in Hy; congruence).
  match goal with M : imembers _ _ _ _ |- _ => pose proof (imembers_sorted _ _ _ _ M) as S end.
  destruct (lt_dec i j) as [L|L]; [left; apply (S i j _ _ Hx Hy L)|right; apply (S j i _ _ Hy Hx); lia].
Qed.

Lemma part_in path : forall data b e root it, document data b e root -> part path root = Some it -> begin_of root <= begin_of it /\ end_of it <= end_of root.
Proof.
  induction path as [|q path IH]; intros data b e root it Hd Hp; cbn [part] in Hp.
  - assert (root = it) by (destruct root; congruence). subst. lia.
  - assert (X : exists x, child x root /\ part path x = Some it).
    { destruct q as [i|k], root as [| |l lb le|ms ob oe]; try discriminate Hp.
      - destruct (nth_error l i) as [x|] eqn:E; [|discriminate]. exists x. split; [eapply nth_error_In; eauto|exact Hp].
      - destruct (last_member k ms) as [x|] eqn:E; [|discriminate]. exists x. split; [|exact Hp]. destruct (last_member_in _ _ _ E) as (m & Hm & ->). exists m. auto. }
    destruct X as (x & Hc & Hx). destruct (document_child _ _ _ _ _ Hd Hc) as (Dx & B). specialize (IH _ _ _ _ _ Dx Hx). lia.
Qed.

(** of two paths, one begins the other or they lead to ranges without a common byte *)
Lemma paths_apart p1 : forall p2 data b e root it1 it2, document data b e root -> part p1 root = Some it1 -> part p2 root = Some it2 ->
  (exists p, p2 = p1 ++ p) \/ (exists p, p1 = p2 ++ p) \/ end_of it1 <= begin_of it2 \/ end_of it2 <= begin_of it1.
Proof.
  induction p1 as [|q1 p1 IH]; intros [|q2 p2] data b e root it1 it2 Hd H1 H2; [now left; exists []|now left; exists (q2 :: p2)|right; left; now exists (q1 :: p1)|].
  destruct q1 as [i|k1], root as [| |l lb le|ms ob oe]; try discriminate H1; destruct q2 as [j|k2]; try discriminate H2; cbn [part] in H1, H2.
  - destruct (nth_error l i) as [x|] eqn:E1; [|discriminate]. destruct (nth_error l j) as [y|] eqn:E2; [|discriminate].
    destruct (document_child _ _ _ _ x Hd (nth_error_In _ _ E1)) as (Dx & _). destruct (document_child _ _ _ _ y Hd (nth_error_In _ _ E2)) as (Dy & _).
    destruct (Nat.eq_dec i j) as [<-|N].
    + rewrite E1 in E2. injection E2 as <-. destruct (IH p2 _ _ _ _ _ _ Dx H1 H2) as [(p & ->)|[(p & ->)|A]]; [left; now exists p|right; left; now exists p|auto].
    + pose proof (elements_apart _ _ _ _ _ _ _ _ _ _ Hd E1 E2 N). pose proof (part_in _ _ _ _ _ _ Dx H1). pose proof (part_in _ _ _ _ _ _ Dy H2). right. right. lia.
  - destruct (last_member k1 ms) as [x|] eqn:E1; [|discriminate]. destruct (last_member k2 ms) as [y|] eqn:E2; [|discriminate].
    assert (C : forall k z, last_member k ms = Some z -> child z (Obj ms ob oe)) by (intros k z E; destruct (last_member_in _ _ _ E) as (m & Hm & ->); exists m; auto).
    destruct (document_child _ _ _ _ x Hd (C _ _ E1)) as (Dx & _). destruct (document_child _ _ _ _ y Hd (C _ _ E2)) as (Dy & _).
    destruct (bytes_eqb_spec k1 k2) as [<-|N].
    + rewrite E1 in E2. injection E2 as <-. destruct (IH p2 _ _ _ _ _ _ Dx H1 H2) as [(p & ->)|[(p & ->)|A]]; [left; now exists p|right; left; now exists p|auto].
    + pose proof (members_apart _ _ _ _ _ _ _ _ _ _ Hd E1 E2 N). pose proof (part_in _ _ _ _ _ _ Dx H1). pose proof (part_in _ _ _ _ _ _ Dy H2). right. right. lia.
Qed.

Lemma part_app p1 : forall p2 root, part (p1 ++ p2) root = match part p1 root with Some x => part p2 x | None => None end.
Proof.
  induction p1 as [|q p1 IH]; intros p2 root; [destruct root; reflexivity|]. cbn [app part]. destruct q as [i|k], root as [| |l lb le|ms ob oe]; auto.
  - destruct (nth_error l i); auto.
  - destruct (last_member k ms); auto.
Qed.

(** a longer path leads strictly inside *)
Lemma part_inside q path data b e root it : document data b e root -> part (q :: path) root = Some it -> begin_of root < begin_of it /\ end_of it < end_of root.
Proof.
  intros Hd Hp. assert (X : exists x, child x root /\ part path x = Some it).
  { cbn [part] in Hp. destruct q as [i|k], root as [| |l lb le|ms ob oe]; try discriminate Hp.
    - destruct (nth_error l i) as [x|] eqn:E; [|discriminate]. exists x. split; [eapply nth_error_In; eauto|exact Hp].
    - destruct (last_member k ms) as [x|] eqn:E; [|discriminate]. exists x. split; [|exact Hp]. destruct (last_member_in _ _ _ E) as (m & Hm & ->). exists m. auto. }
  destruct X as (x & Hc & Hx). destruct (document_child _ _ _ _ _ Hd Hc) as (Dx & B). pose proof (part_in _ _ _ _ _ _ Dx Hx). lia.
Qed.

Lemma chains_apart jsmn to_int inner : (forall z, is_int z -> to_int z = z) ->
  forall data b e root p1 b1 e1 it1 p2 b2 e2 it2,
    document data b e root -> jsmn_knows jsmn data b e root ->
    chain (c_run (json_op jsmn to_int inner)) data b e p1 b1 e1 -> part p1 root = Some it1 -> p1 <> [] ->
    chain (c_run (json_op jsmn to_int inner)) data b e p2 b2 e2 -> part p2 root = Some it2 -> p2 <> [] ->
    (forall q p, p2 = p1 ++ q :: p -> b1 < b2 /\ e2 < e1) /\
    ((forall p, p2 <> p1 ++ p) -> (forall p, p1 <> p2 ++ p) -> e1 <= b2 \/ e2 <= b1) /\
    (b1 = b2 -> e1 = e2 -> p1 = p2).
Proof.
  intros Ht data b e root p1 b1 e1 it1 p2 b2 e2 it2 Hd Hk C1 P1 N1 C2 P2 N2.
  destruct (chain_ok jsmn to_int inner Ht _ _ _ _ _ _ C1 _ _ Hd Hk P1) as (D1 & _ & R1). destruct (R1 N1) as [-> ->].
  destruct (chain_ok jsmn to_int inner Ht _ _ _ _ _ _ C2 _ _ Hd Hk P2) as (D2 & _ & R2). destruct (R2 N2) as [-> ->].
  pose proof (part_range jsmn to_int inner Ht _ _ _ _ _ _ Hd P1) as B1. pose proof (part_range jsmn to_int inner Ht _ _ _ _ _ _ Hd P2) as B2.
  assert (I1 : forall q p, p2 = p1 ++ q :: p -> begin_of it1 < begin_of it2 /\ end_of it2 < end_of it1).
  { intros q p ->. rewrite part_app, P1 in P2. eapply part_inside; eauto. }
  assert (I2 : forall q p, p1 = p2 ++ q :: p -> begin_of it2 < begin_of it1 /\ end_of it1 < end_of it2).
  { intros q p ->. rewrite part_app, P2 in P1. eapply part_inside; eauto. }
  pose proof (paths_apart _ _ _ _ _ _ _ _ Hd P1 P2) as A. split; [exact I1|]. split.
  - intros X Y. destruct A as [(p & E)|[(p & E)|A]]; [now destruct (X p)|now destruct (Y p)|exact A].
  - intros Eb Ee. destruct A as [([|q p] & E)|[([|q p] & E)|A]]; [now rewrite app_nil_r in E|specialize (I1 q p E); lia|now rewrite app_nil_r in E|specialize (I2 q p E); lia|lia].
Qed.

(** Proofs about reading RFC 8259 texts in every memory layout. *)
From Verif Require Import Base JsonSpec JsonModel JsonProof JsonProof2 JsonDenotes JsonProof3 JsonProof4 JsonProof5 JsonLaySpec JsonLayProof JsonStdSpec JsonStdProof PyClientProof.
From Coq Require Import List Arith NArith ZArith Bool Lia.
From Coq.Init Require Import Byte.
From Coq.Strings Require Import Byte.
Import ListNotations.

Definition same_bools (a a' : ast) : Prop := forall b, occurs b a <-> occurs b a'.

Lemma bools_all :
  (forall s v r, rval any_code s v r -> supported v -> exists a, gv s a r /\ same_bools a (in_utf8 v)) /\
  (forall s l r, relems any_code s l r -> supported (VArr l) -> exists k, ge s k r /\ same_bools (AArr k) (in_utf8 (VArr l))) /\
  (forall s l r, rmembers any_code s l r -> supported (VObj l) -> exists k, gm s k r /\ same_bools (AObj k) (in_utf8 (VObj l))).
Proof.
  apply rval_all.
  - intros w r Hw [].
  - intros w b r Hw _. exists (ABool b). split; [now apply G_bool|intros x; reflexivity].
  - intros w sg ds r Hw Hs Hd Hr _. eexists. split; [apply int_read; eauto; now apply ends_digit|intros x; reflexivity].
  - intros w sg ds fr fs ex e r Hw Hs Hd Hf He Hn Hr [].
  - intros w s cs r Hw H _. destruct (rchars_read _ _ _ _ H) as (bs & G & _). exists (AStr bs). split; [now apply G_str|intros x; reflexivity].
  - intros w w' r Hw Hw' _. exists (AArr []). split; [now apply G_arr0|intros x; reflexivity].
  - intros w s l r Hw H IH Hs. destruct (IH Hs) as (k & G & B). exists (AArr k). split; [now apply G_arr|exact B].
  - intros w w' r Hw Hw' _. exists (AObj []). split; [now apply G_obj0|intros x; reflexivity].
  - intros w s l r Hw H IH Hs. destruct (IH Hs) as (k & G & B). exists (AObj k). split; [now apply G_obj|exact B].
  - intros s v w r H IH Hw Hs. cbn in Hs. destruct (IH (proj1 Hs)) as (a & G & B). exists [a]. split; [now apply (GE_last _ _ _ w)|]. intros x. cbn. now rewrite (B x).
  - intros s v w s' l r H IH Hw He IH' Hs. cbn in Hs. destruct (IH (proj1 Hs)) as (a & G & B). destruct (IH' (proj2 Hs)) as (k & G' & B').
    exists (a :: k). split; [now apply (GE_cons _ _ _ w s')|]. intros x. specialize (B x). specialize (B' x). cbn in *. tauto.
  - intros w s k w' s' v w'' r Hw Hk Hw' H IH Hw'' Hs. cbn in Hs. destruct (rchars_read _ _ _ _ Hk) as (bs & Gk & _). destruct (IH (proj1 Hs)) as (a & G & B). exists [(bs, a)].
    split; [apply (GM_last _ _ _ s' _ w''); auto; now apply (GK w s bs w' s')|]. intros x. cbn. now rewrite (B x).
  - intros w s k w' s' v w'' s'' ms r Hw Hk Hw' H IH Hw'' Hm IH' Hs. cbn in Hs. destruct (rchars_read _ _ _ _ Hk) as (bs & Gk & _). destruct (IH (proj1 Hs)) as (a & G & B). destruct (IH' (proj2 Hs)) as (m & G' & B').
    exists ((bs, a) :: m). split; [apply (GM_cons _ _ _ s' _ w'' s''); auto; now apply (GK w s bs w' s')|]. intros x. specialize (B x). specialize (B' x). cbn in *. tauto.
Qed.

Lemma parse_std_any lay s v r : (N.of_nat (length s) < 2^28)%N -> rval any_code s v r -> supported v ->
  ((forall b, occurs b (in_utf8 v) -> readable lay b = true) ->
     exists j a, parse lay s = Ret (true, j) /\ gval documented s a r /\ (short_keys a -> denotes j a) /\ (a = in_utf8 v <-> rval ascii s v r)) /\
  ((exists b, occurs b (in_utf8 v) /\ readable lay b = false) -> parse lay s = Ret (false, JUndef)).
Proof.
  intros Hl H Hs. destruct (std_read s v r H Hs) as (a & G & E). destruct (proj1 bools_all _ _ _ H Hs) as (a' & G' & B).
  destruct (gval_det _ _ _ _ _ _ G' G) as [-> _]. clear G'. destruct (parse_exactly lay s Hl) as (ok & j & P1 & P2 & P3). split.
  - intros Hb. assert (Gr : gval (readable lay) s a r) by (apply gval_with; auto; intros b Hx; apply Hb, B, Hx).
    assert (ok = true) as -> by (apply P2; eauto). exists j, a. split; [exact P1|]. split; [exact G|]. split; [intros K; now apply (P3 a r)|exact E].
  - intros (b & Hx & Hb). destruct (parse_total lay s Hl) as (ok' & j' & P & Hj). rewrite P1 in P. injection P as <- <-.
    destruct ok; [|now rewrite P1, Hj]. exfalso. destruct (proj1 P2 eq_refl) as (a1 & r1 & G1). destruct (gval_det _ _ _ _ _ _ (gval_more _ _ _ _ G1) G) as [-> _].
    apply B in Hx. rewrite (gval_only _ _ _ _ G1 b Hx) in Hb. discriminate.
Qed.

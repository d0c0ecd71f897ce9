(** Proofs about reading RFC 8259 texts. *)
From Verif Require Import Base JsonSpec JsonModel JsonProof JsonStdSpec.
From Coq Require Import List Arith NArith ZArith Bool Lia.
From Coq.Init Require Import Byte.
From Coq.Strings Require Import Byte.
Import ListNotations.
Local Open Scope nat_scope.

Notation gv := (gval documented).
Notation ge := (gelems documented).
Notation gm := (gmembers documented).

(** ------------------------------------------------------------------ UTF-8 *)

Lemma utf8_low c : (c < 128)%N -> utf8 c = [byte_of_N c].
Proof. intros H. unfold utf8. destruct (N.ltb_spec c 128); [reflexivity|lia]. Qed.

Lemma bval_low n : (n < 256)%N -> bval (byte_of_N n) = n.
Proof. intros H. rewrite bval_byte_of_N. now apply N.mod_small. Qed.

Lemma high_byte k m b : (128 <= k)%N -> (m < b)%N -> (k + b <= 256)%N -> (128 <= bval (byte_of_N (k + m)))%N.
Proof. intros. rewrite bval_low; lia. Qed.

Lemma utf8_high c : (128 <= c < 1114112)%N -> Forall (fun b => (128 <= bval b)%N) (utf8 c).
Proof.
  intros H. unfold utf8.
  assert (M : forall n, (n mod 64 < 64)%N) by (intros n; apply N.mod_lt; lia).
  destruct (N.ltb_spec c 128); [lia|]. destruct (N.ltb_spec c 2048); [|destruct (N.ltb_spec c 65536)].
  - assert (c / 64 < 32)%N by (apply N.div_lt_upper_bound; lia). pose proof (M c).
    repeat (apply Forall_cons; [eapply high_byte; [|eassumption|]; lia|]); apply Forall_nil.
  - assert (c / 4096 < 16)%N by (apply N.div_lt_upper_bound; lia). pose proof (M c). pose proof (M (c / 64)%N).
    repeat (apply Forall_cons; [eapply high_byte; [|eassumption|]; lia|]); apply Forall_nil.
  - assert (c / 262144 < 8)%N by (apply N.div_lt_upper_bound; lia). pose proof (M c). pose proof (M (c / 64)%N). pose proof (M (c / 4096)%N).
    repeat (apply Forall_cons; [eapply high_byte; [|eassumption|]; lia|]); apply Forall_nil.
Qed.

Lemma utf8_length c : (1 <= length (utf8 c)) /\ ((128 <= c)%N -> 2 <= length (utf8 c)) /\ ((65536 <= c)%N -> length (utf8 c) = 4).
Proof.
  unfold utf8. destruct (N.ltb_spec c 128); [cbn; lia|]. destruct (N.ltb_spec c 2048); [cbn; lia|]. destruct (N.ltb_spec c 65536); cbn; lia.
Qed.

Lemma scalar_top c : scalar c -> (c < 1114112)%N.
Proof. unfold scalar. lia. Qed.

(** ------------------------------------------------------------------ strings *)

Lemma gchars_high u : Forall (fun b => (128 <= bval b)%N) u -> forall s cs r, gchars s cs r -> gchars (u ++ s) (u ++ cs) r.
Proof.
  induction 1 as [|b u Hb _ IH]; intros s cs r H; [exact H|]. cbn [app]. apply GC_plain; [| |now apply IH].
  - intros ->. change (bval x22) with 34%N in Hb. lia.
  - intros ->. change (bval x5c) with 92%N in Hb. lia.
Qed.

Lemma gchars_raw c s cs r : scalar c -> (32 <= c)%N -> c <> 34%N -> c <> 92%N -> gchars s cs r -> gchars (utf8 c ++ s) (utf8 c ++ cs) r.
Proof.
  intros Hs H1 H2 H3 H. destruct (N.ltb_spec c 128) as [Hc|Hc].
  - rewrite utf8_low by exact Hc. cbn [app]. apply GC_plain; [| |exact H]; intros E; apply (f_equal bval) in E; rewrite bval_low in E by lia.
    + now change (bval x22) with 34%N in E.
    + now change (bval x5c) with 92%N in E.
  - apply gchars_high; [|exact H]. apply utf8_high. split; [exact Hc|now apply scalar_top].
Qed.

Lemma gchars_quad h n s cs r : quad h n -> gchars s cs r -> gchars (x5c :: x75 :: h ++ s) (byte_of_N n :: cs) r.
Proof. intros Hq H. destruct Hq. cbn [app]. now apply GC_code. Qed.

Lemma short_low e c : In (e, c) short_escapes -> (bval c < 128)%N /\ utf8 (bval c) = [c].
Proof.
  intros H. unfold short_escapes in H. cbn in H.
  repeat match type of H with _ \/ _ => destruct H as [H|H] end; try contradiction; injection H as <- <-; split; vm_compute; reflexivity.
Qed.

Lemma rchars_read esc s cs r : rchars esc s cs r ->
  exists bs, gchars s bs r /\ length bs <= length (utf8_text cs) /\ (length bs = length (utf8_text cs) -> rchars ascii s cs r).
Proof.
  induction 1 as [r|c s cs r H1 H2 H3 H4 H IH|e c s cs r H1 H IH|h n s cs r Hq Hs He H IH|h h' hi lo c s cs r Hq Hq' Hh Hl Hc He H IH].
  - exists []. splits; [constructor|cbn; lia|intros _; constructor].
  - destruct IH as (bs & G & Hle & Heq). exists (utf8 c ++ bs). unfold utf8_text in *. cbn [flat_map]. rewrite !app_length. splits; [now apply gchars_raw|lia|].
    intros E. apply R_raw; auto; apply Heq; lia.
  - destruct IH as (bs & G & Hle & Heq). destruct (short_low e c H1) as [_ Hu]. exists (c :: bs). unfold utf8_text in *. cbn [flat_map]. rewrite Hu. cbn [app length].
    splits; [now apply GC_escape|lia|]. intros E. apply R_short; auto; apply Heq; lia.
  - destruct IH as (bs & G & Hle & Heq). exists (byte_of_N n :: bs). unfold utf8_text in *. cbn [flat_map]. rewrite app_length. cbn [length].
    destruct (utf8_length n) as (L1 & L2 & _). splits; [now apply gchars_quad|lia|]. intros E.
    assert (n < 128)%N by (destruct (N.ltb_spec n 128); auto; lia). apply R_code; auto; apply Heq; lia.
  - destruct IH as (bs & G & Hle & Heq). exists (byte_of_N hi :: byte_of_N lo :: bs). unfold utf8_text in *. cbn [flat_map]. rewrite app_length. cbn [length].
    destruct (utf8_length c) as (_ & _ & L3). specialize (L3 ltac:(lia)). splits; [|lia|intros E; lia].
    apply gchars_quad; auto. now apply gchars_quad.
Qed.

Lemma rchars_ascii s cs r : rchars ascii s cs r -> gchars s (utf8_text cs) r.
Proof.
  induction 1 as [r|c s cs r H1 H2 H3 H4 H IH|e c s cs r H1 H IH|h n s cs r Hq Hs He H IH|h h' hi lo c s cs r Hq Hq' Hh Hl Hc He H IH]; unfold utf8_text in *; cbn [flat_map].
  - constructor.
  - now apply gchars_raw.
  - destruct (short_low e c H1) as [_ ->]. now apply GC_escape.
  - rewrite utf8_low by exact He. now apply gchars_quad.
  - unfold ascii in He. lia.
Qed.

(** ------------------------------------------------------------------ numbers *)

Lemma whole_gnat ds r : whole ds -> ~ starts_with_digit r -> gnat (ds ++ r) (decimal ds) r.
Proof. intros H Hr. destruct H as [|d ds Hd Hz Hds]; cbn [app]; [apply (GN_zero r)|]. now apply GN_pos. Qed.

Lemma int_read w sg ds r : white w -> In sg [[]; [x2d]] -> whole ds -> ~ starts_with_digit r ->
  gv (w ++ sg ++ ds ++ r) (AInt (signed sg (Z.of_N (decimal ds)))) r.
Proof.
  intros Hw Hs Hd Hr. pose proof (whole_gnat ds r Hd Hr) as G. destruct Hs as [<-|[<-|[]]]; cbn [app signed]; [now apply G_nat|now apply G_neg].
Qed.

Lemma ends_digit r : number_ends r -> ~ starts_with_digit r.
Proof. intros H (c & r' & -> & Hc). now destruct (H c r' eq_refl). Qed.

Definition dotted (r : bytes) : Prop := exists c r', r = c :: r' /\ In c [x2e; x65; x45].
Lemma dotted_digit r : dotted r -> ~ starts_with_digit r.
Proof. intros (c & r' & -> & H) (d & r'' & E & Hd). injection E as <- _. unfold digit in Hd. destruct H as [<-|[<-|[<-|[]]]]; vm_compute in Hd; now destruct Hd as [H1 H2]. Qed.
Lemma fraction_dotted fr fs ex e r : fraction fr fs -> exponent ex e -> fr ++ ex <> [] -> dotted (fr ++ ex ++ r).
Proof.
  intros H1 H2 H. destruct H1 as [|d ds _]; [|exists x2e, ((d :: ds) ++ ex ++ r); split; [reflexivity|now left]].
  cbn [app] in *. destruct H2 as [|c p d ds Hc _ _|c d ds Hc _]; [congruence| |]; cbn [app]; eexists _, _; (split; [reflexivity|now right]).
Qed.
Lemma dotted_after w c r : white w -> In c [x2c; x5d; x7d] -> ~ dotted (w ++ c :: r).
Proof.
  intros Hw Hc (d & r' & E & Hd). destruct w as [|x w]; cbn [app] in E; injection E as -> _.
  - cbn in Hc, Hd. intuition congruence.
  - inversion Hw as [|? ? Hx _]; subst. unfold white_char in Hx. cbn in Hx, Hd. intuition congruence.
Qed.

(** ------------------------------------------------------------------ values *)

(** the characters of all strings and keys *)
Fixpoint size (a : ast) : nat :=
  match a with
  | AStr s => length s
  | AArr l => fold_right (fun x n => size x + n) 0 l
  | AObj ms => fold_right (fun m n => length (fst m) + size (snd m) + n) 0 ms
  | _ => 0
  end.

Scheme rval_mut := Minimality for rval Sort Prop
  with relems_mut := Minimality for relems Sort Prop
  with rmembers_mut := Minimality for rmembers Sort Prop.
Combined Scheme rval_all from rval_mut, relems_mut, rmembers_mut.

Definition Pv (s : bytes) (v : tree) (r : bytes) : Prop :=
  (supported v /\ exists a, gv s a r /\ size a <= size (in_utf8 v) /\ (size a = size (in_utf8 v) -> rval ascii s v r)) \/
  (~ supported v /\ ((forall a r', ~ gv s a r') \/ (exists m e, v = VReal m e) /\ exists a r', gv s a r' /\ dotted r')).
Definition Pe (s : bytes) (l : list tree) (r : bytes) : Prop :=
  (supported (VArr l) /\ exists k, ge s k r /\ size (AArr k) <= size (in_utf8 (VArr l)) /\ (size (AArr k) = size (in_utf8 (VArr l)) -> relems ascii s l r)) \/
  (~ supported (VArr l) /\ forall k r', ~ ge s k r').
Definition Pm (s : bytes) (l : list (list N * tree)) (r : bytes) : Prop :=
  (supported (VObj l) /\ exists k, gm s k r /\ size (AObj k) <= size (in_utf8 (VObj l)) /\ (size (AObj k) = size (in_utf8 (VObj l)) -> rmembers ascii s l r)) \/
  (~ supported (VObj l) /\ forall k r', ~ gm s k r').

Lemma sep_det w w' c c' r r' : white w -> white w' -> wsb c = false -> wsb c' = false -> w ++ c :: r = w' ++ c' :: r' -> c = c' /\ r = r'.
Proof.
  intros Hw Hw' Hc Hc' E. apply (f_equal drop_ws) in E. rewrite !drop_ws_white, !drop_ws_cons in E by assumption. injection E as -> ->. auto.
Qed.

(** no text starting with another bracket, or none, is read *)
Lemma read_null w r a r' : white w -> ~ gv (w ++ [x6e; x75; x6c; x6c] ++ r) a r'.
Proof.
  intros Hw H. apply gval_core in H. rewrite drop_ws_white in H by exact Hw. cbn in H. destruct H as (n & _ & H). apply gnat_head in H as (c & s & E & Hc). injection E as <- _. unfold digit in Hc. vm_compute in Hc. now destruct Hc as [_ H].
Qed.
Lemma read_arr w s : white w -> forall a r', gv (w ++ x5b :: s) a r' -> (exists s', drop_ws s = x5d :: s') \/ exists l, ge s l r'.
Proof. intros Hw a r' H. apply gval_core in H. rewrite drop_ws_white in H by exact Hw. cbn in H. destruct H as [(s' & H & _)|(l & _ & H)]; eauto. Qed.
Lemma read_obj w s : white w -> forall a r', gv (w ++ x7b :: s) a r' -> (exists s', drop_ws s = x7d :: s') \/ exists l, gm s l r'.
Proof. intros Hw a r' H. apply gval_core in H. rewrite drop_ws_white in H by exact Hw. cbn in H. destruct H as [(s' & H & _)|(l & _ & H)]; eauto. Qed.
(** a value does not start with a closing bracket *)
Lemma rval_head esc s v r : rval esc s v r -> forall s' c, drop_ws s = c :: s' -> c <> x5d /\ c <> x7d.
Proof.
  intros H s' c E. destruct H as [w r Hw|w b r Hw|w sg ds r Hw Hs Hd Hr|w sg ds fr fs ex e r Hw Hs Hd _ _ _ _|w s cs r Hw H|w w' r Hw _|w s l r Hw _|w w' r Hw _|w s ms r Hw _];
    rewrite drop_ws_white in E by exact Hw.
  3,4: destruct Hs as [<-|[<-|[]]]; cbn [app] in E; [|rewrite drop_ws_cons in E by reflexivity; injection E as <- _; split; discriminate].
  3,4: destruct Hd as [|d ds Hd _ _]; cbn [app] in E; [rewrite drop_ws_cons in E by reflexivity; injection E as <- _; split; discriminate|].
  3,4: destruct (digit_cases d Hd) as (E0 & _ & _ & _ & _ & _ & _ & E5 & E7); rewrite drop_ws_cons in E by exact E0; injection E as <- _;
       split; intros ->; discriminate.
  2: destruct b; cbn [literal app] in E; rewrite drop_ws_cons in E by reflexivity; injection E as <- _; split; discriminate.
  all: cbn [app] in E; rewrite drop_ws_cons in E by reflexivity; injection E as <- _; split; discriminate.
Qed.
Lemma relems_head esc s l r : relems esc s l r -> forall s', drop_ws s <> x5d :: s'.
Proof. intros H s' E. destruct H as [s v w r H _|s v w s1 l r H _ _]; destruct (rval_head _ _ _ _ H _ _ E); congruence. Qed.
Lemma rmembers_head esc s l r : rmembers esc s l r -> forall s', drop_ws s <> x7d :: s'.
Proof. intros H s' E. destruct H as [w s k w' s1 v w'' r Hw|w s k w' s1 v w'' s2 ms r Hw]; rewrite drop_ws_white in E by exact Hw; rewrite drop_ws_cons in E by reflexivity; discriminate. Qed.

Lemma read_all : (forall s v r, rval any_code s v r -> Pv s v r) /\ (forall s l r, relems any_code s l r -> Pe s l r) /\ (forall s l r, rmembers any_code s l r -> Pm s l r).
Proof.
  apply rval_all.
  - (* null *) intros w r Hw. right. split; [intros []|]. left. intros a r'. now apply read_null.
  - (* bool *) intros w b r Hw. left. split; [exact I|]. exists (ABool b). splits; [now apply G_bool|cbn; lia|intros _; now apply R_bool].
  - (* int *) intros w sg ds r Hw Hs Hd Hr. left. split; [exact I|]. eexists. splits; [apply int_read; auto; now apply ends_digit|cbn; lia|intros _; now apply R_int].
  - (* real *) intros w sg ds fr fs ex e r Hw Hs Hd Hf He Hn Hr. right. split; [intros []|]. right. split; [eauto|].
    pose proof (fraction_dotted fr fs ex e r Hf He Hn) as HD. eexists _, (fr ++ ex ++ r). split; [|exact HD]. apply int_read; auto. now apply dotted_digit.
  - (* string *) intros w s cs r Hw H. left. split; [exact I|]. destruct (rchars_read _ _ _ _ H) as (bs & G & Hle & Heq). exists (AStr bs). cbn [size in_utf8]. splits; [now apply G_str|exact Hle|]. intros E. apply R_str; auto.
  - (* [] *) intros w w' r Hw Hw'. left. split; [exact I|]. exists (AArr []). splits; [now apply G_arr0|cbn; lia|intros _; now apply R_arr0].
  - (* array *) intros w s l r Hw H [(Hs & k & G & Hle & Heq)|(Hs & Hn)].
    + left. split; [exact Hs|]. exists (AArr k). splits; [now apply G_arr|exact Hle|]. intros E. apply R_arr; auto.
    + right. split; [exact Hs|]. left. intros a r' G. apply read_arr in G as [(s' & E)|(k & G)]; auto; [eapply relems_head; eauto|eapply Hn; eauto].
  - intros w w' r Hw Hw'. left. split; [exact I|]. exists (AObj []). splits; [now apply G_obj0|cbn; lia|intros _; now apply R_obj0].
  - intros w s l r Hw H [(Hs & k & G & Hle & Heq)|(Hs & Hn)].
    + left. split; [exact Hs|]. exists (AObj k). splits; [now apply G_obj|exact Hle|]. intros E. apply R_obj; auto.
    + right. split; [exact Hs|]. left. intros a r' G. apply read_obj in G as [(s' & E)|(k & G)]; auto; [eapply rmembers_head; eauto|eapply Hn; eauto].
  - (* last element *) intros s v w r H [(Hs & a & G & Hle & Heq)|(Hs & Hn)] Hw.
    + left. split; [now cbn|]. exists [a]. cbn [size in_utf8 map fold_right]. splits; [now apply (GE_last _ _ _ w)|lia|]. intros E. apply (RE_last _ _ _ w); auto. apply Heq. lia.
    + right. split; [now cbn|]. intros k r' G.
      assert (Q : exists a' w' c r'', gv s a' (w' ++ c :: r'') /\ white w' /\ In c [x2c; x5d; x7d]).
      { inversion G as [s0 a' w' r0 G' Hw'|s0 a' w' s' l' r0 G' Hw' _]; subst; eexists _, w', _, _; (split; [exact G'|]); (split; [exact Hw'|]); cbn; auto. }
      destruct Q as (a' & w' & c & r'' & G' & Hw' & Hc). destruct Hn as [Hn|(_ & b & r3 & G3 & HD)]; [eapply Hn; eauto|].
      destruct (gval_det _ _ _ _ _ _ G' G3) as [_ <-]. revert HD. now apply dotted_after.
  - intros s v w s' l r H [(Hs & a & G & Hle & Heq)|(Hs & Hn)] Hw He [(Hs' & k & G' & Hle' & Heq')|(Hs' & Hn')].
    + left. split; [now cbn|]. exists (a :: k). cbn [size in_utf8 map fold_right] in *. splits; [now apply (GE_cons _ _ _ w s')|lia|]. intros E. apply (RE_cons _ _ _ w s'); [apply Heq; lia|exact Hw|apply Heq'; lia].
    + right. split; [cbn; intros [_ X]; now apply Hs'|]. intros k r' G0. inversion G0 as [s0 a' w' r0 G1 Hw'|s0 a' w' s1 l1 r0 G1 Hw' G2]; subst; destruct (gval_det _ _ _ _ _ _ G G1) as [_ E].
      * apply sep_det in E as [E _]; auto. discriminate.
      * apply sep_det in E as [_ <-]; auto. eapply Hn'; eauto.
    + right. split; [cbn; tauto|]. intros k' r' G0. 
      assert (Q : exists a' w' c r'', gv s a' (w' ++ c :: r'') /\ white w' /\ In c [x2c; x5d; x7d]).
      { inversion G0 as [s0 a' w' r0 G1 Hw'|s0 a' w' s1 l1 r0 G1 Hw' _]; subst; eexists _, w', _, _; (split; [exact G1|]); (split; [exact Hw'|]); cbn; auto. }
      destruct Q as (a' & w' & c & r'' & G1 & Hw' & Hc). destruct Hn as [Hn|(_ & b & r3 & G3 & HD)]; [eapply Hn; eauto|].
      destruct (gval_det _ _ _ _ _ _ G1 G3) as [_ <-]. revert HD. now apply dotted_after.
    + right. split; [cbn; tauto|]. intros k' r' G0. 
      assert (Q : exists a' w' c r'', gv s a' (w' ++ c :: r'') /\ white w' /\ In c [x2c; x5d; x7d]).
      { inversion G0 as [s0 a' w' r0 G1 Hw'|s0 a' w' s1 l1 r0 G1 Hw' _]; subst; eexists _, w', _, _; (split; [exact G1|]); (split; [exact Hw'|]); cbn; auto. }
      destruct Q as (a' & w' & c & r'' & G1 & Hw' & Hc). destruct Hn as [Hn|(_ & b & r3 & G3 & HD)]; [eapply Hn; eauto|].
      destruct (gval_det _ _ _ _ _ _ G1 G3) as [_ <-]. revert HD. now apply dotted_after.
  - (* last member *) intros w s k w' s' v w'' r Hw Hk Hw' H [(Hs & a & G & Hle & Heq)|(Hs & Hn)] Hw''; destruct (rchars_read _ _ _ _ Hk) as (bs & Gk & Lk & Ek).
    + left. split; [now cbn|]. exists [(bs, a)]. cbn [size in_utf8 map fold_right fst snd]. splits; [apply (GM_last _ _ _ s' _ w''); auto; now apply (GK w s bs w' s')|lia|].
      intros E. apply (RM_last _ _ _ _ w' s' _ w''); auto; [apply Ek; lia|apply Heq; lia].
    + right. split; [now cbn|]. intros k0 r' G0.
      assert (Q : exists a' w1 c r'', gv s' a' (w1 ++ c :: r'') /\ white w1 /\ In c [x2c; x5d; x7d]).
      { pose proof (GK w s bs w' s' Hw Gk Hw') as K. inversion G0 as [s0 k1 s1 a' w1 r0 K1 G1 Hw1|s0 k1 s1 a' w1 s2 l1 r0 K1 G1 Hw1 _]; subst; destruct (gkey_det _ _ _ _ _ K K1) as [_ <-];
          eexists _, w1, _, _; (split; [exact G1|]); (split; [exact Hw1|]); cbn; auto. }
      destruct Q as (a' & w1 & c & r'' & G1 & Hw1 & Hc). destruct Hn as [Hn|(_ & b & r3 & G3 & HD)]; [eapply Hn; eauto|].
      destruct (gval_det _ _ _ _ _ _ G1 G3) as [_ <-]. revert HD. now apply dotted_after.
  - intros w s k w' s' v w'' s'' ms r Hw Hk Hw' H P1 Hw'' Hm P2. destruct (rchars_read _ _ _ _ Hk) as (bs & Gk & Lk & Ek). pose proof (GK w s bs w' s' Hw Gk Hw') as K.
    destruct P1 as [(Hs & a & G & Hle & Heq)|(Hs & Hn)]; [destruct P2 as [(Hs' & m & G' & Hle' & Heq')|(Hs' & Hn')]|].
    + left. split; [now cbn|]. exists ((bs, a) :: m). cbn [size in_utf8 map fold_right fst snd] in *. splits; [now apply (GM_cons _ _ _ s' _ w'' s'')|lia|].
      intros E. apply (RM_cons _ _ _ _ w' s' _ w'' s''); auto; [apply Ek; lia|apply Heq; lia|apply Heq'; lia].
    + right. split; [cbn; intros [_ X]; now apply Hs'|]. intros k0 r' G0. inversion G0 as [s0 k1 s1 a' w1 r0 K1 G1 Hw1|s0 k1 s1 a' w1 s2 l1 r0 K1 G1 Hw1 G2]; subst; destruct (gkey_det _ _ _ _ _ K K1) as [_ <-]; destruct (gval_det _ _ _ _ _ _ G G1) as [_ E].
      * apply sep_det in E as [E _]; auto. discriminate.
      * apply sep_det in E as [_ <-]; auto. eapply Hn'; eauto.
    + right. split; [cbn; tauto|]. intros k0 r' G0.
      assert (Q : exists a' w1 c r'', gv s' a' (w1 ++ c :: r'') /\ white w1 /\ In c [x2c; x5d; x7d]).
      { inversion G0 as [s0 k1 s1 a' w1 r0 K1 G1 Hw1|s0 k1 s1 a' w1 s2 l1 r0 K1 G1 Hw1 _]; subst; destruct (gkey_det _ _ _ _ _ K K1) as [_ <-];
          eexists _, w1, _, _; (split; [exact G1|]); (split; [exact Hw1|]); cbn; auto. }
      destruct Q as (a' & w1 & c & r'' & G1 & Hw1 & Hc). destruct Hn as [Hn|(_ & b & r3 & G3 & HD)]; [eapply Hn; eauto|].
      destruct (gval_det _ _ _ _ _ _ G1 G3) as [_ <-]. revert HD. now apply dotted_after.
Qed.

Lemma ascii_all :
  (forall s v r, rval ascii s v r -> supported v -> gv s (in_utf8 v) r) /\
  (forall s l r, relems ascii s l r -> supported (VArr l) -> ge s (map in_utf8 l) r) /\
  (forall s l r, rmembers ascii s l r -> supported (VObj l) -> gm s (map (fun m => (utf8_text (fst m), in_utf8 (snd m))) l) r).
Proof.
  apply rval_all.
  - intros w r Hw [].
  - intros w b r Hw _. now apply G_bool.
  - intros w sg ds r Hw Hs Hd Hr _. apply int_read; auto. now apply ends_digit.
  - intros w sg ds fr fs ex e r Hw Hs Hd Hf He Hn Hr [].
  - intros w s cs r Hw H _. apply G_str; auto. now apply rchars_ascii.
  - intros w w' r Hw Hw' _. now apply G_arr0.
  - intros w s l r Hw H IH Hs. apply G_arr; auto.
  - intros w w' r Hw Hw' _. now apply G_obj0.
  - intros w s l r Hw H IH Hs. apply G_obj; auto.
  - intros s v w r H IH Hw Hs. cbn in Hs. apply (GE_last _ _ _ w); [apply IH; tauto|exact Hw].
  - intros s v w s' l r H IH Hw He IH' Hs. cbn in Hs. apply (GE_cons _ _ _ w s'); [apply IH; tauto|exact Hw|apply IH'; cbn; tauto].
  - intros w s k w' s' v w'' r Hw Hk Hw' H IH Hw'' Hs. cbn in Hs. apply (GM_last _ _ _ s' _ w''); [apply (GK w s _ w' s'); auto; now apply rchars_ascii|apply IH; tauto|exact Hw''].
  - intros w s k w' s' v w'' s'' ms r Hw Hk Hw' H IH Hw'' Hm IH' Hs. cbn in Hs. apply (GM_cons _ _ _ s' _ w'' s''); [apply (GK w s _ w' s'); auto; now apply rchars_ascii|apply IH; tauto|exact Hw''|apply IH'; cbn; tauto].
Qed.

Lemma std_read s v r : rval any_code s v r -> supported v ->
  exists a, gv s a r /\ (a = in_utf8 v <-> rval ascii s v r).
Proof.
  intros H Hs. destruct (proj1 read_all _ _ _ H) as [(_ & a & G & Hle & Heq)|(Hn & _)]; [|contradiction]. exists a. split; [exact G|]. split.
  - intros ->. now apply Heq.
  - intros Ha. apply (proj1 ascii_all) in Ha; [|exact Hs]. now destruct (gval_det _ _ _ _ _ _ G Ha).
Qed.

Lemma std_refused s v r : rval any_code s v r -> ~ supported v -> (forall m e, v <> VReal m e) -> forall a r', ~ gv s a r'.
Proof.
  intros H Hs Hr a r' G. destruct (proj1 read_all _ _ _ H) as [(Hn & _)|(_ & [Hn|((m & e & ->) & _)])]; [contradiction|eapply Hn; eauto|now apply (Hr m e)].
Qed.

(** Proofs about standard texts that Python writes and reads. *)
From Coq Require Import String.
From Verif Require Import Base JsonSpec JsonModel JsonProof JsonProof2 JsonProof3 JsonProof4 JsonProof5 JsonNormalProof JsonLengthProof JsonDenotes JsonStdSpec JsonStdProof PyClientModel EniModel EniProof CliSpec CliModel CliProof ToolsProof.
From Coq Require Import List Arith NArith ZArith Bool Lia.
From Coq.Init Require Import Byte.
From Coq.Strings Require Import Byte.
Import ListNotations.
Local Open Scope nat_scope.
Local Open Scope list_scope.

Section TreeInd.
  Variable P : tree -> Prop.
  Hypothesis Hn : P VNull.
  Hypothesis Hb : forall b, P (VBool b).
  Hypothesis Hi : forall z, P (VInt z).
  Hypothesis Hr : forall m e, P (VReal m e).
  Hypothesis Hs : forall s, P (VStr s).
  Hypothesis Ha : forall l, Forall P l -> P (VArr l).
  Hypothesis Ho : forall ms, Forall (fun m => P (snd m)) ms -> P (VObj ms).
  Fixpoint tree_all (v : tree) : P v :=
    match v with
    | VNull => Hn | VBool b => Hb b | VInt z => Hi z | VReal m e => Hr m e | VStr s => Hs s
    | VArr l => Ha l ((fix go l : Forall P l := match l with [] => Forall_nil _ | x :: l' => Forall_cons x (tree_all x) (go l') end) l)
    | VObj ms => Ho ms ((fix go ms : Forall (fun m => P (snd m)) ms := match ms with [] => Forall_nil _ | m :: l' => Forall_cons m (tree_all (snd m)) (go l') end) ms)
    end.
End TreeInd.

(** ------------------------------------------------------------------ white space in front *)

Lemma white_space w : white w -> white (x20 :: w).
Proof. intros H. constructor; [unfold white_char; cbn; auto|exact H]. Qed.
Lemma rval_space esc s v r : rval esc s v r -> rval esc (x20 :: s) v r.
Proof.
  intros H. destruct H as [w r Hw|w b r Hw|w sg ds r Hw Hs Hd Hr|w sg ds fr fs ex e r Hw Hs Hd Hf He Hn Hr|w s cs r Hw H|w w' r Hw H|w s l r Hw H|w w' r Hw H|w s ms r Hw H]; rewrite app_comm_cons.
  - apply R_null. now apply white_space.
  - apply R_bool. now apply white_space.
  - apply R_int; auto. now apply white_space.
  - eapply R_real; eauto. now apply white_space.
  - apply R_str; auto. now apply white_space.
  - apply R_arr0; auto. now apply white_space.
  - apply R_arr; auto. now apply white_space.
  - apply R_obj0; auto. now apply white_space.
  - apply R_obj; auto. now apply white_space.
Qed.
Lemma relems_space esc s l r : relems esc s l r -> relems esc (x20 :: s) l r.
Proof. destruct 1; [eapply RE_last|eapply RE_cons]; eauto using rval_space. Qed.
Lemma rmembers_space esc s l r : rmembers esc s l r -> rmembers esc (x20 :: s) l r.
Proof. destruct 1; rewrite app_comm_cons; [eapply RM_last|eapply RM_cons]; eauto using white_space. Qed.

(** ------------------------------------------------------------------ what json.dumps writes *)

Lemma py_hex_value n : (n < 16)%N -> hex_value (py_hex n) = Some n.
Proof.
  intros H. assert (In n (map N.of_nat (seq 0 16))) as I.
  { apply in_map_iff. exists (N.to_nat n). split; [apply N2Nat.id|]. apply in_seq. lia. }
  cbn in I. repeat (destruct I as [<-|I]; [reflexivity|]). destruct I.
Qed.
Lemma py_quad n : (n < 65536)%N -> exists h, py_u n = x5c :: x75 :: h /\ quad h n.
Proof.
  intros H. eexists. split; [reflexivity|].
  assert (E : n = (((n / 4096 * 16 + n / 256 mod 16) * 16 + n / 16 mod 16) * 16 + n mod 16)%N).
  { zify. Z.to_euclidean_division_equations. lia. }
  rewrite E at 5. apply Quad; apply py_hex_value.
  - apply N.div_lt_upper_bound; lia.
  - apply N.mod_lt; lia.
  - apply N.mod_lt; lia.
  - apply N.mod_lt; lia.
Qed.

Lemma py_char_read c s cs r : scalar c -> rchars any_code s cs r -> rchars any_code (py_char c ++ s) (c :: cs) r.
Proof.
  intros Hc H. unfold py_char.
  destruct (N.eqb_spec c 34) as [->|]; [apply (R_short any_code x22 x22); cbn; auto|].
  destruct (N.eqb_spec c 92) as [->|]; [apply (R_short any_code x5c x5c); cbn; auto|].
  destruct (N.eqb_spec c 10) as [->|]; [apply (R_short any_code x6e x0a); cbn; tauto|].
  destruct (N.eqb_spec c 13) as [->|]; [apply (R_short any_code x72 x0d); cbn; tauto|].
  destruct (N.eqb_spec c 9) as [->|]; [apply (R_short any_code x74 x09); cbn; tauto|].
  destruct (N.eqb_spec c 12) as [->|]; [apply (R_short any_code x66 x0c); cbn; tauto|].
  destruct (N.eqb_spec c 8) as [->|]; [apply (R_short any_code x62 x08); cbn; tauto|].
  destruct (N.leb_spec 32 c); [destruct (N.leb_spec c 126)|]; cbn [andb].
  { rewrite <- utf8_low by lia. apply R_raw; auto. }
  all: destruct (N.ltb_spec c 65536) as [Hl|Hl]; try (destruct (py_quad c Hl) as (h & -> & Hq); cbn [app]; apply R_code; auto; exact I).
  all: unfold scalar in Hc.
  2: lia.
  assert (D : ((c - 65536) / 1024 < 1024)%N) by (apply N.div_lt_upper_bound; lia).
  assert (M : ((c - 65536) mod 1024 < 1024)%N) by (apply N.mod_lt; lia).
  pose proof (N.div_mod' (c - 65536) 1024) as E.
  revert D M E. generalize ((c - 65536) / 1024)%N ((c - 65536) mod 1024)%N. intros d m D M E.
  destruct (py_quad (55296 + d)) as (h & -> & Hq); [lia|]. destruct (py_quad (56320 + m)) as (h' & -> & Hq'); [lia|].
  cbn [app]. rewrite <- app_assoc. cbn [app]. eapply R_pair; eauto; [lia|lia|lia|exact I].
Qed.
Lemma py_str_read s r : Forall scalar s -> rchars any_code (flat_map py_char s ++ x22 :: r) s r.
Proof. induction 1 as [|c s Hc _ IH]; cbn [flat_map app]; [constructor|]. rewrite <- app_assoc. now apply py_char_read. Qed.

Lemma char_ends c r : In c [x2c; x5d; x7d; x0a] -> number_ends (c :: r).
Proof.
  intros H c' r' E. injection E as <- _. unfold digit. split.
  - intros [H1 H2]. cbn in H. destruct H as [<-|[<-|[<-|[<-|[]]]]]; vm_compute in H1, H2; congruence.
  - cbn in H |- *. intuition congruence.
Qed.
Lemma whole_text n : whole (dec_text n) /\ decimal (dec_text n) = n.
Proof.
  split; [|apply dec_text_decimal]. destruct (dec_text_shape n) as [[-> _]|(Hz & Hne & _)]; [constructor|].
  pose proof (dec_text_digits n) as Hd. destruct (dec_text n) as [|d ds]; [congruence|]. inversion Hd; subst. apply W_pos; auto. apply (Hz d ds eq_refl).
Qed.
Lemma int_text_read esc z r : number_ends r -> rval esc (int_text z ++ r) (VInt z) r.
Proof.
  intros Hr. unfold int_text. destruct (Z.ltb_spec z 0).
  - destruct (whole_text (Z.to_N (- z))) as [H1 H2]. pose proof (R_int esc [] [x2d] _ r (Forall_nil _) (or_intror (or_introl eq_refl)) H1 Hr) as G.
    rewrite H2, Z2N.id in G by lia. cbn [signed] in G. rewrite Z.opp_involutive in G. exact G.
  - destruct (whole_text (Z.to_N z)) as [H1 H2]. pose proof (R_int esc [] [] _ r (Forall_nil _) (or_introl eq_refl) H1 Hr) as G.
    rewrite H2, Z2N.id in G by lia. exact G.
Qed.

Section Dumps.
  Variable repr : Z -> Z -> bytes.
  Notation dumps := (dumps repr).

  Lemma dumps_read v : unicode v -> no_reals v -> forall r, number_ends r -> rval any_code (dumps v ++ r) v r.
  Proof.
    induction v as [|b|z|m e|s|l IH|ms IH] using tree_all; intros Hu Hn r Hr; cbn [PyClientModel.dumps].
    - apply (R_null any_code [] r). constructor.
    - apply (R_bool any_code [] b r). constructor.
    - now apply int_text_read.
    - destruct Hn.
    - unfold py_str. cbn [app]. rewrite <- app_assoc. cbn [app]. apply (R_str any_code []); [constructor|]. now apply py_str_read.
    - destruct l as [|x l]. { apply (R_arr0 any_code [] [] r); constructor. }
      cbn [app]. apply (R_arr any_code []); [constructor|]. rewrite <- app_assoc. cbn [app]. clear Hr. revert x IH Hu Hn. induction l as [|y l IHl]; intros x IH Hu Hn; cbn in Hu, Hn; inversion IH as [|? ? Hx Hl]; subst.
      + cbn [map py_commas]. apply (RE_last _ _ _ []); [|constructor]. apply Hx; try tauto. apply char_ends. cbn. auto.
      + cbn [map]. cbn [map] in IHl. change (py_commas (dumps x :: dumps y :: map dumps l)) with (dumps x ++ x2c :: x20 :: py_commas (dumps y :: map dumps l)).
        rewrite <- app_assoc. cbn [app]. eapply (RE_cons _ _ _ []); [|constructor|apply relems_space; apply IHl; auto; cbn; tauto]. apply Hx; try tauto. apply char_ends. cbn. auto.
    - destruct ms as [|[k x] l]. { apply (R_obj0 any_code [] [] r); constructor. }
      cbn [app]. apply (R_obj any_code []); [constructor|]. rewrite <- app_assoc. cbn [app]. clear Hr. revert k x IH Hu Hn. induction l as [|[k' y] l IHl]; intros k x IH Hu Hn; cbn in Hu, Hn; inversion IH as [|? ? Hx Hl]; subst; cbn [snd fst] in *.
      + cbn [map py_commas fst snd]. unfold py_str. cbn [app]. rewrite <- !app_assoc. cbn [app].
        eapply (RM_last _ [] _ _ [] _ _ []); [constructor|apply py_str_read; tauto|constructor| |constructor]. apply rval_space. rewrite <- ?app_assoc. apply Hx; try tauto. apply char_ends. cbn. auto.
      + cbn [map fst snd]. cbn [map fst snd] in IHl.
        match goal with |- rmembers _ (py_commas (?a :: ?b :: ?c) ++ ?t) _ _ => change (py_commas (a :: b :: c)) with (a ++ x2c :: x20 :: py_commas (b :: c)) end.
        rewrite <- !app_assoc. unfold py_str at 1. cbn [app]. rewrite <- !app_assoc. cbn [app].
        eapply (RM_cons _ [] _ _ [] _ _ []); [constructor|apply py_str_read; tauto|constructor| |constructor|apply rmembers_space; apply IHl; auto; cbn; tauto].
        apply rval_space. rewrite <- ?app_assoc. apply Hx; try tauto. apply char_ends. cbn. auto.
  Qed.

  Definition graph (b : byte) : Prop := (32 <= bval b < 127)%N.
  Lemma py_hex_graph n : (n < 16)%N -> graph (py_hex n).
  Proof. intros H. unfold graph, py_hex. destruct (N.ltb_spec n 10); rewrite bval_low; lia. Qed.
  Lemma py_u_graph n : (n < 65536)%N -> Forall graph (py_u n).
  Proof.
    intros H. unfold py_u. repeat apply Forall_cons; try apply Forall_nil; try (unfold graph; vm_compute; split; congruence); apply py_hex_graph.
    - apply N.div_lt_upper_bound; lia.
    - apply N.mod_lt; lia.
    - apply N.mod_lt; lia.
    - apply N.mod_lt; lia.
  Qed.
  Lemma py_char_graph c : scalar c -> Forall graph (py_char c).
  Proof.
    intros Hc. unfold py_char. repeat match goal with |- Forall _ (if (?a =? ?b)%N then _ else _) => destruct (N.eqb_spec a b); [repeat constructor; vm_compute; congruence|] end.
    destruct (N.leb_spec 32 c); [destruct (N.leb_spec c 126)|]; cbn [andb].
    { constructor; [|constructor]. unfold graph. rewrite bval_low; lia. }
    all: destruct (N.ltb_spec c 65536) as [Hl|Hl]; try now apply py_u_graph.
    all: unfold scalar in Hc.
    2: lia.
    assert (D : ((c - 65536) / 1024 < 1024)%N) by (apply N.div_lt_upper_bound; lia).
    assert (M : ((c - 65536) mod 1024 < 1024)%N) by (apply N.mod_lt; lia).
    apply Forall_app. split; apply py_u_graph; revert D M; generalize ((c - 65536) / 1024)%N ((c - 65536) mod 1024)%N; lia.
  Qed.
  Lemma Forall_flat {A B} (P : B -> Prop) (f : A -> list B) l : (forall x, In x l -> Forall P (f x)) -> Forall P (flat_map f l).
  Proof. induction l as [|x l IH]; intros H; cbn [flat_map]; [constructor|]. apply Forall_app. split; [apply H; now left|apply IH; intros y Hy; apply H; now right]. Qed.
  Lemma py_str_graph s : Forall scalar s -> Forall graph (py_str s).
  Proof.
    intros H. unfold py_str. constructor; [vm_compute; split; congruence|]. apply Forall_app. split; [|repeat constructor; vm_compute; congruence].
    apply Forall_flat. intros c Hc. apply py_char_graph. rewrite Forall_forall in H. auto.
  Qed.
  Lemma py_commas_graph l : Forall (Forall graph) l -> Forall graph (py_commas l).
  Proof.
    induction 1 as [|x l Hx Hl IH]; cbn [py_commas]; [constructor|]. destruct l as [|y l]; [exact Hx|]. apply Forall_app. split; [exact Hx|].
    constructor; [vm_compute; split; congruence|]. constructor; [vm_compute; split; congruence|]. exact IH.
  Qed.
  Lemma digit_graph d : digit d -> graph d.
  Proof. unfold digit, graph. lia. Qed.
  Lemma dec_graph n : Forall graph (dec_text n).
  Proof. eapply Forall_impl; [exact digit_graph|apply dec_text_digits]. Qed.
  Lemma dumps_graph v : unicode v -> no_reals v -> Forall graph (dumps v).
  Proof.
    induction v as [|b|z|m e|s|l IH|ms IH] using tree_all; intros Hu Hn; cbn [PyClientModel.dumps].
    - repeat constructor; vm_compute; congruence.
    - destruct b; repeat constructor; vm_compute; congruence.
    - unfold int_text. destruct (z <? 0)%Z; [constructor; [vm_compute; split; congruence|]|]; apply dec_graph.
    - destruct Hn.
    - now apply py_str_graph.
    - constructor; [vm_compute; split; congruence|]. apply Forall_app. split; [|repeat constructor; vm_compute; congruence]. apply py_commas_graph.
      clear -IH Hu Hn. induction IH as [|x l Hx _ IHl]; cbn in *; constructor; tauto.
    - constructor; [vm_compute; split; congruence|]. apply Forall_app. split; [|repeat constructor; vm_compute; congruence]. apply py_commas_graph.
      clear -IH Hu Hn. induction IH as [|x l Hx _ IHl]; cbn [map]; [constructor|]. cbn [unicode no_reals fold_right] in Hu, Hn, IHl. constructor; [|apply IHl; tauto].
      apply Forall_app. split; [apply py_str_graph; tauto|]. constructor; [vm_compute; split; congruence|]. constructor; [vm_compute; split; congruence|]. tauto.
  Qed.
End Dumps.

(** ------------------------------------------------------------------ texts of ASCII characters *)

Lemma rchars_up s cs r : rchars any_code s cs r -> Forall ascii cs -> rchars ascii s cs r.
Proof.
  induction 1 as [r|c s cs r H1 H2 H3 H4 H IH|e c s cs r H1 H IH|h n s cs r Hq Hs He H IH|h h' hi lo c s cs r Hq Hq' Hh Hl Hc He H IH]; intros F; inversion F; subst.
  - constructor.
  - apply R_raw; auto.
  - apply R_short; auto.
  - apply R_code; auto.
  - eapply R_pair; eauto.
Qed.
Lemma rval_up :
  (forall s v r, rval any_code s v r -> all_ascii v -> rval ascii s v r) /\
  (forall s l r, relems any_code s l r -> all_ascii (VArr l) -> relems ascii s l r) /\
  (forall s l r, rmembers any_code s l r -> all_ascii (VObj l) -> rmembers ascii s l r).
Proof.
  apply rval_all.
  - intros; now apply R_null.
  - intros; now apply R_bool.
  - intros; now apply R_int.
  - intros; eapply R_real; eauto.
  - intros w s cs r Hw H A. apply R_str; auto. now apply rchars_up.
  - intros; now apply R_arr0.
  - intros w s l r Hw H IH A. apply R_arr; auto.
  - intros; now apply R_obj0.
  - intros w s l r Hw H IH A. apply R_obj; auto.
  - intros s v w r H IH Hw A. cbn in A. eapply RE_last; eauto. apply IH. tauto.
  - intros s v w s' l r H IH Hw He IH' A. cbn in A. apply (RE_cons _ _ _ w s'); [apply IH; tauto|exact Hw|apply IH'; cbn; tauto].
  - intros w s k w' s' v w'' r Hw Hk Hw' H IH Hw'' A. cbn in A. apply (RM_last _ _ _ _ w' s' _ w''); [exact Hw|apply rchars_up; [exact Hk|tauto]|exact Hw'|apply IH; tauto|exact Hw''].
  - intros w s k w' s' v w'' s'' ms r Hw Hk Hw' H IH Hw'' Hm IH' A. cbn in A. apply (RM_cons _ _ _ _ w' s' _ w'' s''); [exact Hw|apply rchars_up; [exact Hk|tauto]|exact Hw'|apply IH; tauto|exact Hw''|apply IH'; cbn; tauto].
Qed.

Definition lowb (b : byte) : Prop := (bval b < 128)%N.
Lemma utf8_lowb c : scalar c -> Forall lowb (utf8 c) -> ascii c.
Proof.
  intros Hs H. unfold ascii. destruct (N.ltb_spec c 128) as [|Hc]; auto. exfalso. pose proof (utf8_high c (conj Hc (scalar_top c Hs))) as Hh.
  destruct (utf8_length c) as (L & _). destruct (utf8 c) as [|b u]; [cbn in L; lia|]. inversion H; inversion Hh; subst. unfold lowb in *. lia.
Qed.
Lemma rchars_lowb s cs r : rchars ascii s cs r -> Forall lowb s -> Forall ascii cs /\ Forall lowb r.
Proof.
  induction 1 as [r|c s cs r H1 H2 H3 H4 H IH|e c s cs r H1 H IH|h n s cs r Hq Hs He H IH|h h' hi lo c s cs r Hq Hq' Hh Hl Hc He H IH]; intros F.
  - inversion F; auto.
  - apply Forall_app in F as [F1 F2]. destruct (IH F2) as [A B]. split; auto. constructor; auto. now apply utf8_lowb.
  - inversion F as [|? ? _ F']; inversion F'; subst. destruct IH as [A B]; auto. split; auto. constructor; auto. now apply (short_low e c).
  - inversion F as [|? ? _ F']; inversion F' as [|? ? _ F'']; subst. apply Forall_app in F'' as [_ F'']. destruct IH as [A B]; auto.
  - unfold ascii in He. lia.
Qed.
Lemma Forall_tail {A} (P : A -> Prop) (w : list A) c r : Forall P (w ++ c :: r) -> Forall P r.
Proof. intros H. apply Forall_app in H as [_ H]. now inversion H. Qed.
Lemma rval_lowb :
  (forall s v r, rval ascii s v r -> Forall lowb s -> all_ascii v /\ Forall lowb r) /\
  (forall s l r, relems ascii s l r -> Forall lowb s -> all_ascii (VArr l) /\ Forall lowb r) /\
  (forall s l r, rmembers ascii s l r -> Forall lowb s -> all_ascii (VObj l) /\ Forall lowb r).
Proof.
  apply rval_all.
  - intros w r Hw F. apply Forall_app in F as [_ F]. apply Forall_app in F as [_ F]. split; [exact I|exact F].
  - intros w b r Hw F. apply Forall_app in F as [_ F]. apply Forall_app in F as [_ F]. split; [exact I|exact F].
  - intros w sg ds r Hw Hs Hd Hr F. apply Forall_app in F as [_ F]. apply Forall_app in F as [_ F]. apply Forall_app in F as [_ F]. split; [exact I|exact F].
  - intros w sg ds fr fs ex e r Hw Hs Hd Hf He Hn Hr F. apply Forall_app in F as [_ F]. apply Forall_app in F as [_ F]. apply Forall_app in F as [_ F]. apply Forall_app in F as [_ F]. apply Forall_app in F as [_ F]. split; [exact I|exact F].
  - intros w s cs r Hw H F. apply Forall_tail in F. now apply rchars_lowb in H.
  - intros w w' r Hw Hw' F. apply Forall_tail in F. apply Forall_tail in F. split; [exact I|exact F].
  - intros w s l r Hw H IH F. apply Forall_tail in F. auto.
  - intros w w' r Hw Hw' F. apply Forall_tail in F. apply Forall_tail in F. split; [exact I|exact F].
  - intros w s l r Hw H IH F. apply Forall_tail in F. auto.
  - intros s v w r H IH Hw F. destruct (IH F) as [A B]. apply Forall_tail in B. cbn. tauto.
  - intros s v w s' l r H IH Hw He IH' F. destruct (IH F) as [A B]. apply Forall_tail in B. destruct (IH' B) as [A' B']. cbn in *. tauto.
  - intros w s k w' s' v w'' r Hw Hk Hw' H IH Hw'' F. apply Forall_tail in F. destruct (rchars_lowb _ _ _ Hk F) as [K F1]. apply Forall_tail in F1. destruct (IH F1) as [A B]. apply Forall_tail in B. cbn. tauto.
  - intros w s k w' s' v w'' s'' ms r Hw Hk Hw' H IH Hw'' Hm IH' F. apply Forall_tail in F. destruct (rchars_lowb _ _ _ Hk F) as [K F1]. apply Forall_tail in F1. destruct (IH F1) as [A B]. apply Forall_tail in B.
    destruct (IH' B) as [A' B']. cbn in *. tauto.
Qed.

Lemma graph_low b : graph b -> lowb b.
Proof. unfold graph, lowb. lia. Qed.
Lemma no_rest : number_ends [].
Proof. intros c r E. discriminate E. Qed.

Lemma dumps_sent repr v : unicode v -> no_reals v ->
  rval any_code (dumps repr v) v [] /\ (rval ascii (dumps repr v) v [] <-> all_ascii v) /\ Forall graph (dumps repr v).
Proof.
  intros Hu Hn. pose proof (dumps_read repr v Hu Hn [] no_rest) as H. rewrite app_nil_r in H. pose proof (dumps_graph repr v Hu Hn) as G. split; [exact H|]. split; [|exact G]. split.
  - intros A. eapply (proj1 rval_lowb); [exact A|]. eapply Forall_impl; [exact graph_low|exact G].
  - now apply (proj1 rval_up).
Qed.

(** ------------------------------------------------------------------ what the code prints *)

Lemma print_char_shape c : (c = x22 \/ c = x5c) /\ print_char c = [x5c; c] \/
  (bval c < 32)%N /\ print_char c = [x5c; x75; x30; x30; hex_digit (bval c / 16); hex_digit (bval c mod 16)] \/
  (32 <= bval c)%N /\ c <> x22 /\ c <> x5c /\ print_char c = [c].
Proof.
  unfold print_char. destruct (beqb_spec c x22) as [->|H1]; [left; auto|]. destruct (beqb_spec c x5c) as [->|H2]; [left; auto|]. cbn [orb]. right.
  pose proof (bval_lt c) as Hc. unfold schar. fold (bval c). destruct (Z.ltb_spec (Z.of_N (bval c)) 128); destruct (Z.leb_spec 0 (Z.of_N (bval c))); try lia; cbn [andb].
  - destruct (Z.ltb_spec (Z.of_N (bval c)) 32); [left; split; [lia|auto]|right; splits; auto; lia].
  - destruct (Z.leb_spec 0 (Z.of_N (bval c) - 256)); [lia|]. cbn [andb]. right. splits; auto; lia.
Qed.
Lemma hex_digit_value n : (n < 16)%N -> hex_value (hex_digit n) = Some n.
Proof.
  intros H. assert (In n (map N.of_nat (seq 0 16))) as I.
  { apply in_map_iff. exists (N.to_nat n). split; [apply N2Nat.id|]. apply in_seq. lia. }
  cbn in I. repeat (destruct I as [<-|I]; [reflexivity|]). destruct I.
Qed.
Lemma control_quad c : (bval c < 32)%N -> quad [x30; x30; hex_digit (bval c / 16); hex_digit (bval c mod 16)] (bval c).
Proof.
  intros H. replace (bval c) with (((0 * 16 + 0) * 16 + bval c / 16) * 16 + bval c mod 16)%N at 3.
  - apply Quad; [reflexivity|reflexivity| |]; apply hex_digit_value; [apply N.div_lt_upper_bound; lia|apply N.mod_lt; lia].
  - pose proof (N.div_mod' (bval c) 16). lia.
Qed.
Lemma quad_det h n m : quad h n -> quad h m -> n = m.
Proof. intros H. destruct H; intros G; inversion G; subst. congruence. Qed.

(** a printed UTF-8 string is a standard text of the string *)
Lemma high_print u : Forall (fun b => (128 <= bval b)%N) u -> flat_map print_char u = u.
Proof.
  induction 1 as [|b u Hb _ IH]; cbn [flat_map]; [reflexivity|]. destruct (print_char_shape b) as [([-> | ->] & _)|[(H & _)|(_ & _ & _ & ->)]].
  - change (bval x22) with 34%N in Hb. lia.
  - change (bval x5c) with 92%N in Hb. lia.
  - lia.
  - cbn [app]. now rewrite IH.
Qed.
Lemma printed_rchars cs r : Forall scalar cs -> rchars ascii (flat_map print_char (utf8_text cs) ++ x22 :: r) cs r.
Proof.
  induction 1 as [|c cs Hc _ IH]; [constructor|]. unfold utf8_text in *. cbn [flat_map]. rewrite flat_map_app, <- app_assoc.
  destruct (N.ltb_spec c 128) as [H|H].
  - pose proof (utf8_low c H) as Hu. rewrite Hu. cbn [flat_map]. rewrite app_nil_r. pose proof (bval_low c ltac:(lia)) as Hv. destruct (print_char_shape (byte_of_N c)) as [(E & ->)|[(E & ->)|(H1 & H2 & H3 & ->)]].
    + cbn [app]. rewrite <- Hv at 2. apply R_short; [|exact IH]. destruct E as [-> | ->]; cbn; auto.
    + cbn [app]. pose proof (control_quad _ E) as Q. rewrite <- Hv at 3. apply (R_code ascii _ _ _ _ _ Q); [now rewrite Hv|unfold ascii; now rewrite Hv|exact IH].
    + rewrite <- Hu. apply R_raw; auto; [lia| |]; intros ->; [now apply H2|now apply H3].
  - pose proof (scalar_top c Hc). rewrite high_print by (apply utf8_high; lia). apply R_raw; auto; lia.
Qed.

(** a printed string is a standard text only of the string that it is the UTF-8 of *)
Definition printed (s r : bytes) : Prop := exists cs, s = flat_map print_char cs ++ x22 :: r.
Lemma printed_high u s r : Forall (fun b => (128 <= bval b)%N) u -> printed (u ++ s) r -> printed s r.
Proof.
  induction 1 as [|b u Hb _ IH]; [auto|]. intros (cs & E). apply IH. destruct cs as [|c cs]; cbn [flat_map app] in E.
  - injection E as -> _. change (bval x22) with 34%N in Hb. lia.
  - destruct (print_char_shape c) as [(_ & F)|[(_ & F)|(_ & _ & _ & F)]]; rewrite F in E; cbn [app] in E; injection E as -> E.
    + change (bval x5c) with 92%N in Hb. lia.
    + change (bval x5c) with 92%N in Hb. lia.
    + exists cs. exact E.
Qed.
Lemma printed_escape s r : printed (x5c :: s) r -> exists c s', s = c :: s' /\ (c = x22 \/ c = x5c) /\ printed s' r \/
  exists c s', (bval c < 32)%N /\ s = [x75; x30; x30; hex_digit (bval c / 16); hex_digit (bval c mod 16)] ++ s' /\ printed s' r.
Proof.
  intros (cs & E). destruct cs as [|c cs]; cbn [flat_map app] in E; [discriminate|].
  destruct (print_char_shape c) as [(H & F)|[(H & F)|(H1 & H2 & H3 & F)]]; rewrite F in E; cbn [app] in E; injection E as E; subst.
  - exists c, (flat_map print_char cs ++ x22 :: r). left. splits; auto. exists cs; auto.
  - exists c, (flat_map print_char cs ++ x22 :: r). right. eexists _, _. splits; [exact H|reflexivity|]. exists cs; auto.
  - congruence.
Qed.
Lemma rchars_printed s cs r : rchars any_code s cs r -> forall r', printed s r' -> rchars ascii s cs r.
Proof.
  induction 1 as [r|c s cs r H1 H2 H3 H4 H IH|e c s cs r H1 H IH|h n s cs r Hq Hs He H IH|h h' hi lo c s cs r Hq Hq' Hh Hl Hc He H IH]; intros r' P.
  - constructor.
  - apply R_raw; auto. destruct (N.ltb_spec c 128) as [Hc|Hc]; [|apply (IH r'); apply (printed_high (utf8 c)); auto; apply utf8_high; split; [exact Hc|now apply scalar_top]].
    apply (IH r'). rewrite utf8_low in P by exact Hc. destruct P as ([|x xs] & E); cbn [flat_map app] in E.
    + injection E as E _. apply (f_equal bval) in E. rewrite bval_low in E by lia. contradiction.
    + destruct (print_char_shape x) as [(_ & F)|[(_ & F)|(_ & _ & _ & F)]]; rewrite F in E; cbn [app] in E; injection E as E1 E.
      * apply (f_equal bval) in E1. rewrite bval_low in E1 by lia. contradiction.
      * apply (f_equal bval) in E1. rewrite bval_low in E1 by lia. contradiction.
      * exists xs. exact E.
  - apply R_short; auto. apply (IH r'). apply printed_escape in P as (c' & s' & [(E & _ & P)|(c2 & s2 & _ & E & _)]).
    + injection E as <- <-. exact P.
    + cbn [app] in E. injection E as -> _. cbn in H1. repeat destruct H1 as [H1|H1]; try discriminate; contradiction.
  - apply printed_escape in P as (c' & s' & [(E & [-> | ->] & _)|(c2 & s2 & Hc2 & E & P)]); [discriminate|discriminate|].
    destruct Hq. cbn [app] in E. injection E as -> -> -> -> E. subst s2.
    assert (Q : quad [x30; x30; hex_digit (bval c2 / 16); hex_digit (bval c2 mod 16)] (((n1 * 16 + n2) * 16 + n3) * 16 + n4)%N) by (constructor; assumption).
    pose proof (quad_det _ _ _ (control_quad c2 Hc2) Q) as EQ. apply R_code; auto; [unfold ascii; lia|]. now apply (IH r').
  - apply printed_escape in P as (c' & s' & [(E & [-> | ->] & _)|(c2 & s2 & Hc2 & E & P)]); [discriminate|discriminate|].
    destruct Hq. cbn [app] in E. injection E as -> -> -> -> E.
    assert (Q : quad [x30; x30; hex_digit (bval c2 / 16); hex_digit (bval c2 mod 16)] (((n1 * 16 + n2) * 16 + n3) * 16 + n4)%N) by (constructor; assumption).
    pose proof (quad_det _ _ _ (control_quad c2 Hc2) Q) as EQ. lia.
Qed.
Lemma rchars_scalar s cs r : rchars ascii s cs r -> Forall scalar cs.
Proof.
  induction 1 as [r|c s cs r H1 H2 H3 H4 H IH|e c s cs r H1 H IH|h n s cs r Hq Hs He H IH|h h' hi lo c s cs r Hq Hq' Hh Hl Hc He H IH]; constructor; auto.
  - destruct (short_low e c H1). left. lia.
  - unfold ascii in He. lia.
Qed.
Lemma printed_only bs cs r r' : rchars any_code (flat_map print_char bs ++ x22 :: r) cs r' -> utf8_text cs = bs /\ r' = r /\ Forall scalar cs.
Proof.
  intros H. apply (fun H => rchars_printed _ _ _ H r) in H; [|exists bs; reflexivity]. pose proof (rchars_scalar _ _ _ H) as Hs. apply rchars_ascii in H. destruct (gchars_det _ _ _ H _ _ (print_str_gchars bs r)) as [E E']. auto.
Qed.

(** ------------------------------------------------------------------ an answer of one string *)

Lemma rval_first esc c s v r : wsb c = false -> rval esc (c :: s) v r -> 
  (c = x5b -> (v = VArr [] /\ exists w, white w /\ s = w ++ x5d :: r) \/ exists l, v = VArr l /\ relems esc s l r) /\
  (c = x22 -> exists cs, v = VStr cs /\ rchars esc s cs r).
Proof.
  intros Hc H. remember (c :: s) as x eqn:E.
  assert (D : forall w y z, white w -> wsb y = false -> w ++ y :: z = c :: s -> y = c /\ z = s).
  { intros w y z Hw Hy E'. exact (sep_det w [] y c z s Hw (Forall_nil _) Hy Hc E'). }
  destruct H as [w r Hw|w b r Hw|w sg ds r Hw Hs Hd Hr|w sg ds fr fs ex e r Hw Hs Hd Hf He Hn Hr|w s0 cs r Hw H|w w' r Hw H|w s0 l r Hw H|w w' r Hw H|w s0 ms r Hw H].
  - apply D in E as [<- <-]; auto. split; discriminate.
  - destruct b; apply D in E as [<- <-]; auto; split; discriminate.
  - assert (X : exists y z, sg ++ ds ++ r = y :: z /\ wsb y = false /\ y <> x5b /\ y <> x22).
    { destruct Hs as [<-|[<-|[]]]; [|eexists _, _; split; [reflexivity|]; splits; discriminate || reflexivity]. destruct Hd as [|d ds Hd _ _]; (eexists _, _; split; [reflexivity|]); [splits; discriminate || reflexivity|].
      destruct (digit_cases d Hd) as (E0 & _ & E2 & E3 & _). splits; auto; intros ->; discriminate. }
    destruct X as (y & z & EX & Hy & N1 & N2). rewrite EX in E. apply D in E as [<- <-]; auto. split; congruence.
  - assert (X : exists y z, sg ++ ds ++ fr ++ ex ++ r = y :: z /\ wsb y = false /\ y <> x5b /\ y <> x22).
    { destruct Hs as [<-|[<-|[]]]; [|eexists _, _; split; [reflexivity|]; splits; discriminate || reflexivity]. destruct Hd as [|d ds Hd _ _]; (eexists _, _; split; [reflexivity|]); [splits; discriminate || reflexivity|].
      destruct (digit_cases d Hd) as (E0 & _ & E2 & E3 & _). splits; auto; intros ->; discriminate. }
    destruct X as (y & z & EX & Hy & N1 & N2). rewrite EX in E. apply D in E as [<- <-]; auto. split; congruence.
  - apply D in E as [<- <-]; auto. split; [discriminate|eauto].
  - apply D in E as [<- <-]; auto. split; [|discriminate]. left. eauto.
  - apply D in E as [<- <-]; auto. split; [|discriminate]. right. eauto.
  - apply D in E as [<- <-]; auto. split; discriminate.
  - apply D in E as [<- <-]; auto. split; discriminate.
Qed.

Lemma one_string_bytes bs : strings_text [bs] = x5b :: x22 :: flat_map print_char bs ++ [x22; x5d].
Proof. unfold strings_text. cbn [map commas app]. now rewrite <- app_assoc. Qed.

Lemma loads_one_string bs u : loads (strings_text [bs] ++ [x0a]) u <-> exists cs, u = VArr [VStr cs] /\ utf8_text cs = bs /\ Forall scalar cs.
Proof.
  rewrite one_string_bytes. cbn [app]. rewrite <- app_assoc. cbn [app]. split.
  - intros (w & H & _). apply rval_first in H as [H _]; [|reflexivity]. destruct (H eq_refl) as [(-> & w' & Hw' & E)|(l & -> & HE)].
    + exfalso. apply (sep_det [] w' x22 x5d) in E as [E _]; auto; [discriminate|constructor].
    + inversion HE as [s v w' r' H1 Hw' E1 E2 E3|s v w' s' l' r' H1 Hw' H2 E1 E2 E3]; subst; apply rval_first in H1 as [_ H1]; try reflexivity; destruct (H1 eq_refl) as (cs & -> & HC); apply printed_only in HC as (HU & HR & HS).
      * exists cs. splits; auto.
      * apply (sep_det w' [] x2c x5d) in HR as [HR _]; auto; [discriminate|constructor].
  - intros (cs & -> & <- & Hs). exists [x0a]. split; [|apply Forall_cons; [unfold white_char; cbn; auto|apply Forall_nil]].
    apply (R_arr any_code []); [constructor|]. apply (RE_last any_code _ _ []); [|constructor]. apply (R_str any_code []); [constructor|].
    pose proof (printed_rchars cs ([x5d; x0a]) Hs) as H. cbn [app].
    assert (W : forall s cs r, rchars ascii s cs r -> rchars any_code s cs r).
    { clear. induction 1; [constructor|apply R_raw|apply R_short|apply R_code|eapply R_pair; eauto]; auto; exact I. }
    now apply W.
Qed.

Lemma ascii_text s : Forall ascii s -> utf8_text s = map byte_of_N s.
Proof. induction 1 as [|c s Hc _ IH]; [reflexivity|]. unfold utf8_text in *. cbn [flat_map map]. now rewrite IH, utf8_low. Qed.
Lemma utf8_text_length_rev s : length (utf8_text (rev s)) = length (utf8_text s).
Proof. unfold utf8_text. induction s as [|c s IH]; [reflexivity|]. cbn [rev flat_map]. rewrite flat_map_app, !app_length. cbn [flat_map]. rewrite app_length. cbn [length]. lia. Qed.
Lemma ascii_text_inj cs s : Forall scalar cs -> Forall ascii s -> utf8_text cs = map byte_of_N s -> cs = s.
Proof.
  intros Hc Hs. revert cs Hc. induction Hs as [|x s Hx _ IH]; intros [|c cs] Hc E; unfold utf8_text in *; cbn [flat_map map] in E; auto.
  - destruct (utf8_length c) as (L & _). destruct (utf8 c); [cbn in L; lia|discriminate].
  - discriminate.
  - inversion Hc as [|? ? Hc1 Hc2]; subst. destruct (N.ltb_spec c 128) as [H|H].
    + rewrite utf8_low in E by exact H. cbn [app] in E. injection E as E1 E2. apply (f_equal bval) in E1. unfold ascii in Hx. rewrite !bval_low in E1 by lia. subst. f_equal. auto.
    + pose proof (utf8_high c (conj H (scalar_top c Hc1))) as Hh. destruct (utf8_length c) as (L & _). destruct (utf8 c) as [|b u]; [cbn in L; lia|]. cbn [app] in E. injection E as -> _.
      inversion Hh; subst. unfold ascii in Hx. rewrite bval_low in *; lia.
Qed.

Lemma graph_nonul s : Forall graph s -> ~ In NUL s.
Proof. intros H I. rewrite Forall_forall in H. specialize (H _ I). unfold graph in H. change (bval NUL) with 0%N in H. lia. Qed.

Lemma py_chars_length s : length (flat_map py_char s) <= 12 * length s.
Proof.
  induction s as [|c s IH]; [cbn; lia|]. cbn [flat_map length]. rewrite app_length.
  assert (length (py_char c) <= 12). { unfold py_char. repeat match goal with |- context [if ?b then _ else _] => destruct b; [cbn; lia|] end. cbn. lia. }
  lia.
Qed.

Lemma client_reverse repr strict lay path ops s : (N.of_nat (length path) < 2^31)%N -> is_option path = false ->
  NoDup (map fst ops) -> In (list_byte_of_string "reverse", reverse_op) ops -> Forall scalar s -> (N.of_nat (length s) < 2^24)%N ->
  exists out, main_run strict (one_library lay path ops) (command_line repr (list_byte_of_string "eni_run") path (list_byte_of_string "reverse") (VArr [VStr s])) = Ret (0%Z, out) /\
    (Forall ascii s -> forall u, loads out u <-> u = VArr [VStr (rev s)]) /\
    (~ Forall ascii s -> ~ loads out (VArr [VStr (rev s)])).
Proof.
  intros Hp Ho Hd Hi Hs Hl.
  set (t := dumps repr (VArr [VStr s])). unfold command_line. fold t.
  assert (Et : t = x5b :: x22 :: flat_map py_char s ++ [x22; x5d]).
  { subst t. cbn [dumps map py_commas]. unfold py_str. cbn [app]. now rewrite <- app_assoc. }
  pose proof (py_str_read s [x5d] Hs) as HC. destruct (rchars_read _ _ _ _ HC) as (bs & G & Hle & Heq).
  assert (Hg : gval (readable lay) t (AArr [AStr bs]) []).
  { rewrite Et. apply (G_arr _ []); [constructor|]. apply (GE_last _ _ _ []); [|constructor]. apply (G_str _ []); [constructor|exact G]. }
  assert (Hgr : Forall graph t) by (apply dumps_sent; cbn; tauto).
  assert (Hc : cstr t = t) by (apply cstr_id; now apply graph_nonul).
  assert (Hlen : (N.of_nat (length t) < 2^28)%N).
  { rewrite Et. cbn [length]. rewrite app_length. cbn [length]. pose proof (py_chars_length s). change (2^24)%N with 16777216%N in Hl. change (2^28)%N with 268435456%N. lia. }
  assert (Hpos : positionals [path; list_byte_of_string "reverse"; t] [path; list_byte_of_string "reverse"; t]).
  { assert (Hdd : ~ In double_dash [path; list_byte_of_string "reverse"; t]).
    { intros [X|[X|[X|[]]]]; [rewrite X in Ho; discriminate|discriminate|rewrite Et in X; discriminate]. }
    pose proof (P_without _ Hdd) as HP. unfold non_options in HP. cbn [filter] in HP. rewrite Ho in HP. rewrite Et in HP |- *. exact HP. }
  assert (Hargs : forall a, In a (tl [list_byte_of_string "eni_run"; path; list_byte_of_string "reverse"; t]) -> (N.of_nat (length a) < 2^31)%N).
  { cbn [tl]. change (2^28)%N with 268435456%N in Hlen. change (2^31)%N with 2147483648%N in *. intros a [<-|[<-|[<-|[]]]]; [exact Hp|reflexivity|lia]. }
  destruct (cli_library strict lay path ops _ _ _ t Hargs Hd Hi Hpos) as (R & _).
  destruct (reverse_run lay t bs [] []) as [_ RR]; [now rewrite Hc|now rewrite Hc|].
  exists (strings_text [rev bs] ++ [x0a]). split; [now apply R|]. split.
  - intros Ha u. pose proof (rchars_ascii _ _ _ (rchars_up _ _ _ HC Ha)) as G2. destruct (gchars_det _ _ _ G _ _ G2) as [-> _].
    rewrite ascii_text, <- map_rev by exact Ha. rewrite loads_one_string. assert (Hra : Forall ascii (rev s)) by (now apply Forall_rev). split.
    + intros (cs & -> & E & Hcs). do 3 f_equal. now apply ascii_text_inj.
    + intros ->. exists (rev s). split; [reflexivity|]. split; [now apply ascii_text|now apply Forall_rev].
  - intros Hna L. apply loads_one_string in L as (cs & E & EU & _). injection E as <-. apply Hna. apply (f_equal (@length byte)) in EU. rewrite utf8_text_length_rev, rev_length in EU.
    symmetry in EU. apply Heq in EU. eapply rchars_lowb; [exact EU|]. rewrite Et in Hgr. inversion Hgr as [|? ? _ Hgr']; inversion Hgr' as [|? ? _ Hgr'']; subst.
    eapply Forall_impl; [exact graph_low|exact Hgr''].
Qed.

(** ------------------------------------------------------------------ printed values *)

Lemma print_std v : forall j, simple j -> ast_of j = in_utf8 v -> supported v -> unicode v ->
  exists t, print j = Ret t /\ forall r, number_ends r -> rval ascii (t ++ r) v r.
Proof.
  induction v as [|b|z|m e|s|l IH|ms IH] using tree_all; intros j Hj E Hs Hu; try destruct Hs; destruct Hj as [z' Hz|b'|s'|l' Hl]; cbn [ast_of in_utf8] in E; try discriminate.
  - injection E as ->. eexists. split; [reflexivity|]. intros r Hr. destruct b; [apply (R_bool ascii [] true)|apply (R_bool ascii [] false)]; constructor.
  - injection E as ->. eexists. split; [reflexivity|]. intros r Hr. now apply int_text_read.
  - injection E as ->. eexists. split; [reflexivity|]. intros r Hr. cbn [app]. rewrite <- app_assoc. cbn [app]. apply (R_str ascii []); [constructor|]. now apply printed_rchars.
  - injection E as E.
    assert (H : exists ts, sequence (map print l') = Ret ts /\ (l = [] -> ts = []) /\ forall r, l <> [] -> relems ascii (commas ts ++ x5d :: r) l r).
    { revert l' Hl E Hs Hu. induction IH as [|x l Hx _ IHl]; intros [|j l'] Hl E Hs Hu; try discriminate; cbn [map] in *.
      - exists []. splits; auto. intros r X. congruence.
      - injection E as E1 E2. cbn in Hs, Hu. destruct Hs as [Hs1 Hs2]. destruct Hu as [Hu1 Hu2]. destruct (Hx j) as (t & Ht & Hg); auto. { apply Hl. now left. }
        destruct (IHl l') as (ts & Hts & Hnil & Hge); auto. { intros v Hv. apply Hl. now right. }
        exists (t :: ts). cbn [sequence]. rewrite Ht. cbn [bind]. rewrite Hts. split; [reflexivity|]. split; [discriminate|]. intros r _. destruct l as [|y l].
        + rewrite Hnil by reflexivity. cbn [commas]. apply (RE_last ascii _ _ []); [|constructor]. apply Hg. apply char_ends. cbn. auto.
        + destruct ts as [|t' ts]. { destruct l' as [|j' l']; [discriminate|]. cbn [map sequence] in Hts. apply bind_ret in Hts as (? & _ & Hts). apply bind_ret in Hts as (? & _ & Hts). discriminate. }
          change (commas (t :: t' :: ts)) with (t ++ x2c :: commas (t' :: ts)). rewrite <- app_assoc. cbn [app].
          apply (RE_cons ascii _ _ [] (commas (t' :: ts) ++ x5d :: r)); [|constructor|apply Hge; discriminate]. apply Hg. apply char_ends. cbn. auto. }
    destruct H as (ts & Hts & Hnil & Hge). cbn [print]. rewrite Hts. cbn [bind]. eexists. split; [reflexivity|]. intros r Hr. destruct l as [|x l].
    + rewrite Hnil by reflexivity. apply (R_arr0 ascii [] [] r); constructor.
    + cbn [app]. rewrite <- app_assoc. cbn [app]. apply (R_arr ascii []); [constructor|]. apply Hge. discriminate.
Qed.

(** ------------------------------------------------------------------ the parser *)

Lemma gval_more lay s a r : gval (readable lay) s a r -> gval documented s a r.
Proof. apply gval_lits. reflexivity. Qed.

Lemma parse_std lay s v r : (N.of_nat (length s) < 2^28)%N -> good_layout lay -> rval any_code s v r -> supported v ->
  exists j a, parse lay s = Ret (true, j) /\ gval documented s a r /\ (short_keys a -> denotes j a) /\ (a = in_utf8 v <-> rval ascii s v r).
Proof.
  intros Hl HL H Hs. destruct (std_read s v r H Hs) as (a & G & E). destruct (parse_documented lay s Hl HL) as (ok & j & P1 & P2 & P3).
  assert (ok = true) as -> by (apply P2; eauto). exists j, a. split; [exact P1|]. split; [exact G|]. split; [|exact E]. intros K. now apply (P3 a r).
Qed.
Lemma parse_refused lay s v r : (N.of_nat (length s) < 2^28)%N -> rval any_code s v r -> ~ supported v -> (forall m e, v <> VReal m e) ->
  parse lay s = Ret (false, JUndef).
Proof.
  intros Hl H Hs Hr. destruct (parse_total lay s Hl) as (ok & j & P & Hj). destruct (parse_exactly lay s Hl) as (ok' & j' & P' & P2 & _).
  rewrite P in P'. injection P' as <- <-. destruct ok; [|now rewrite P, Hj]. exfalso. destruct (proj1 P2 eq_refl) as (a & r' & G).
  apply gval_more in G. exact (std_refused s v r H Hs Hr _ _ G).
Qed.
Lemma parse_real lay s m e r : (N.of_nat (length s) < 2^28)%N -> rval any_code s (VReal m e) r ->
  exists w sg ds r', s = w ++ sg ++ ds ++ r' /\ white w /\ In sg [[]; [x2d]] /\ whole ds /\ dotted r' /\
    exists j, parse lay s = Ret (true, j) /\ denotes j (AInt (signed sg (Z.of_N (decimal ds)))).
Proof.
  intros Hl H. inversion H as [| | |w sg ds fr fs ex e' r0 Hw Hs Hd Hf He Hn Hr E1 E2 E3| | | | |]; subst.
  exists w, sg, ds, (fr ++ ex ++ r). pose proof (fraction_dotted fr fs ex e' r Hf He Hn) as HD.
  split; [reflexivity|]. split; [exact Hw|]. split; [exact Hs|]. split; [exact Hd|]. split; [exact HD|].
  assert (G : gval (readable lay) (w ++ sg ++ ds ++ fr ++ ex ++ r) (AInt (signed sg (Z.of_N (decimal ds)))) (fr ++ ex ++ r)).
  { pose proof (whole_gnat ds (fr ++ ex ++ r) Hd (dotted_digit _ HD)) as G. destruct Hs as [<-|[<-|[]]]; cbn [app signed]; [now apply G_nat|now apply G_neg]. }
  destruct (parse_exactly lay _ Hl) as (ok & j & P & P2 & P3). assert (ok = true) as -> by (apply P2; eauto). exists j. split; [exact P|]. apply (P3 _ _ G). exact I.
Qed.

Lemma rchars_first esc c s cs r : rchars esc (c :: s) cs r -> (32 <= bval c)%N.
Proof.
  intros H. remember (c :: s) as x eqn:E. destruct H as [r|c' s' cs r H1 H2 H3 H4 H|e c' s' cs r H1 H|h n s' cs r Hq Hs He H|h h' hi lo c' s' cs r Hq Hq' Hh Hl Hc He H]; try (injection E as <- _; vm_compute; discriminate).
  destruct (N.ltb_spec c' 128) as [L|L].
  - rewrite utf8_low in E by exact L. cbn [app] in E. injection E as <- _. rewrite bval_low; lia.
  - pose proof (utf8_high c' (conj L (scalar_top c' H1))) as Hh. destruct (utf8_length c') as (Ln & _). destruct (utf8 c') as [|b u]; [cbn in Ln; lia|]. cbn [app] in E. injection E as <- _. inversion Hh; subst. lia.
Qed.
Lemma lenient lay c : (bval c < 32)%N ->
  parse lay [x22; c; x22] = Ret (true, JStr [c]) /\ forall v r, ~ rval any_code [x22; c; x22] v r.
Proof.
  intros Hc. split.
  - destruct (parse_ok lay [x22; c; x22] ltac:(reflexivity)) as [(a & r & j & G & B & _ & P)|(N & _)].
    + assert (G2 : gval (layout_lits lay) [x22; c; x22] (AStr [c]) []).
      { apply (G_str _ [] [c; x22]); [constructor|]. apply GC_plain; [| |constructor]; intros ->; vm_compute in Hc; discriminate. }
      destruct (gval_det _ _ _ _ _ _ G G2) as [-> _]. cbn [build] in B. injection B as <-. exact P.
    + exfalso. eapply N. apply (G_str _ [] [c; x22]); [constructor|]. apply GC_plain; [| |constructor]; intros ->; vm_compute in Hc; discriminate.
  - intros v r H. apply rval_first in H as [_ H]; [|reflexivity]. destruct (H eq_refl) as (cs & _ & HC). apply rchars_first in HC. lia.
Qed.

Lemma parse_std_ascii lay s v r : (N.of_nat (length s) < 2^28)%N -> good_layout lay -> rval ascii s v r -> supported v -> short_keys (in_utf8 v) ->
  exists j, parse lay s = Ret (true, j) /\ denotes j (in_utf8 v).
Proof.
  intros Hl HL H Hs Hk. pose proof (proj1 ascii_all _ _ _ H Hs) as G. destruct (parse_documented lay s Hl HL) as (ok & j & P1 & P2 & P3).
  assert (ok = true) as -> by (apply P2; eauto). exists j. split; [exact P1|]. now apply (P3 _ r).
Qed.
Lemma print_std_text v j : simple j -> ast_of j = in_utf8 v -> supported v -> unicode v -> exists t, print j = Ret t /\ rval ascii t v [].
Proof. intros Hj E Hs Hu. destruct (print_std v j Hj E Hs Hu) as (t & Ht & H). exists t. split; [exact Ht|]. specialize (H [] no_rest). now rewrite app_nil_r in H. Qed.

Lemma supported_no_reals v : supported v -> no_reals v.
Proof.
  induction v as [|b|z|m e|s|l IH|ms IH] using tree_all; cbn; auto.
  - induction IH as [|x l Hx _ IHl]; cbn; tauto.
  - induction IH as [|x l Hx _ IHl]; cbn; tauto.
Qed.
Lemma client_received repr lay v : unicode v -> supported v -> good_layout lay -> (N.of_nat (length (dumps repr v)) < 2^28)%N ->
  exists j a, parse lay (dumps repr v) = Ret (true, j) /\ gval documented (dumps repr v) a [] /\ (short_keys a -> denotes j a) /\ (a = in_utf8 v <-> all_ascii v).
Proof.
  intros Hu Hs HL Hl. destruct (dumps_sent repr v Hu (supported_no_reals v Hs)) as (H & E & _). destruct (parse_std lay _ v [] Hl HL H Hs) as (j & a & P & G & D & E').
  exists j, a. split; [exact P|]. split; [exact G|]. split; [exact D|]. now rewrite E'.
Qed.
Lemma client_none repr lay v : unicode v -> no_reals v -> ~ supported v -> (N.of_nat (length (dumps repr v)) < 2^28)%N -> parse lay (dumps repr v) = Ret (false, JUndef).
Proof.
  intros Hu Hn Hs Hl. destruct (dumps_sent repr v Hu Hn) as (H & _). apply (parse_refused lay _ v []); auto. intros m e ->. exact Hn.
Qed.

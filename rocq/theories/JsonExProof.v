(** Lemmas about the JSON example. *)
From Verif Require Import Base JsonSpec JsonModel JsonDenotes JsonProof JsonProof2 JsonProof3 EniModel EniProof CryptoModel CryptoProof CliModel JsonExSpec JsonExModel.
From Coq Require Import List NArith ZArith Bool Lia Arith.
From Coq.Init Require Import Byte.
From Coq.Strings Require Import Byte.
Import ListNotations.
Local Open Scope Z_scope.

Scheme ival_ind2 := Minimality for ival Sort Prop
  with ielems_ind2 := Minimality for ielems Sort Prop
  with imembers_ind2 := Minimality for imembers Sort Prop.

Lemma len_app a b : len (a ++ b) = len a + len b.
Proof. unfold len. rewrite app_length. lia. Qed.
Lemma len_cons c a : len (c :: a) = 1 + len a.
Proof. unfold len. cbn [length]. lia. Qed.
Lemma len_nil : len [] = 0.
Proof. reflexivity. Qed.
Lemma len_pos a : 0 <= len a.
Proof. unfold len. lia. Qed.

(** ** Texts and their parts *)

Lemma gchars_app t r cs : gchars (t ++ r) cs r -> (1 <= length t)%nat /\ forall r', gchars (t ++ r') cs r'.
Proof.
  intros H. assert (Hg : forall s cs r, gchars s cs r -> exists p, s = p ++ r /\ (1 <= length p)%nat /\ forall r', gchars (p ++ r') cs r').
  { clear. induction 1 as [r0|e c s0 cs r0 He H (p & -> & Hl & IH)|h1 h2 h3 h4 n1 n2 n3 n4 s0 cs r0 E1 E2 E3 E4 H (p & -> & Hl & IH)|c s0 cs r0 Hc1 Hc2 H (p & -> & Hl & IH)].
    - exists [x22]. split; auto. split; [cbn; lia|]. intros. constructor.
    - exists (x5c :: e :: p). split; auto. split; [cbn; lia|]. intros. cbn. now constructor.
    - exists (x5c :: x75 :: h1 :: h2 :: h3 :: h4 :: p). split; auto. split; [cbn; lia|]. intros. cbn. now constructor.
    - exists (c :: p). split; auto. split; [cbn; lia|]. intros. cbn. now constructor. }
  apply Hg in H as (p & E & Hl & H). apply app_inv_tail in E as ->. auto.
Qed.

Lemma primitive_len t : primitive t -> (1 <= length t)%nat.
Proof. destruct 1; cbn; lia. Qed.

(** what is needed about a text and its token list *)
Definition places (p : Z) (s : bytes) (it : item) (r : bytes) : Prop :=
  exists w t, s = w ++ t ++ r /\ white w /\ (1 <= length t)%nat /\ begin_of it = p + len w /\ end_of it = p + len w + len t /\
    (forall p' w' r', white w' -> p' + len w' = p + len w -> ival p' (w' ++ t ++ r') it r').

Lemma ival_places p s it r : ival p s it r -> places p s it r.
Proof.
  revert p s it r.
  apply (ival_ind2 places
    (fun p s l r => exists t, s = t ++ r /\ (1 <= length t)%nat /\ forall r', ielems p (t ++ r') l r')
    (fun p s l r => exists t, s = t ++ r /\ (1 <= length t)%nat /\ forall r', imembers p (t ++ r') l r')).
  - intros p w t r Hw Ht. exists w, t. cbn [begin_of end_of]. repeat split; auto. { now apply primitive_len. }
    intros p' w' r' Hw' E. rewrite <- E. now constructor.
  - intros p w t cs r Hw Ht. apply gchars_app in Ht as [Hl Ht]. exists w, (x22 :: t). cbn [begin_of end_of app length]. rewrite len_cons. repeat split; auto; try lia.
    intros p' w' r' Hw' E. rewrite <- E. now constructor.
  - intros p w w' r Hw Hw'. exists w, (x5b :: w' ++ [x5d]). cbn [begin_of end_of app length]. rewrite len_cons, len_app, len_cons, len_nil. rewrite <- app_assoc. repeat split; auto; try lia.
    intros p' w0 r' Hw0 E. rewrite <- E. rewrite <- app_assoc. now constructor.
  - intros p w s l r Hw _ (t & -> & Hl & H). exists w, (x5b :: t). cbn [begin_of end_of app length]. rewrite !len_cons, !len_app. repeat split; auto; try lia.
    intros p' w' r' Hw' E. replace (p + len w + 1 + (len t + len r - len r)) with (p' + len w' + 1 + (len (t ++ r') - len r')) by (rewrite len_app; lia).
    rewrite <- E. constructor; auto. rewrite E. apply H.
  - intros p w w' r Hw Hw'. exists w, (x7b :: w' ++ [x7d]). cbn [begin_of end_of app length]. rewrite len_cons, len_app, len_cons, len_nil. rewrite <- app_assoc. repeat split; auto; try lia.
    intros p' w0 r' Hw0 E. rewrite <- E. rewrite <- app_assoc. now constructor.
  - intros p w s l r Hw _ (t & -> & Hl & H). exists w, (x7b :: t). cbn [begin_of end_of app length]. rewrite !len_cons, !len_app. repeat split; auto; try lia.
    intros p' w' r' Hw' E. replace (p + len w + 1 + (len t + len r - len r)) with (p' + len w' + 1 + (len (t ++ r') - len r')) by (rewrite len_app; lia).
    rewrite <- E. constructor; auto. rewrite E. apply H.
  - intros p s it w r _ (w0 & t & -> & Hw0 & Hl & Hb & He & H) Hw. exists (w0 ++ t ++ w ++ [x5d]). rewrite <- !app_assoc. cbn [app]. split; auto. split; [rewrite !app_length; cbn; lia|].
    intros r'. rewrite <- !app_assoc. cbn [app]. eapply IE_last; [apply (H p w0); auto|auto].
  - intros p s it w s' l r _ (w0 & t & -> & Hw0 & Hl & Hb & He & H) Hw _ (t' & -> & Hl' & H'). exists (w0 ++ t ++ w ++ x2c :: t'). rewrite <- !app_assoc. cbn [app]. split; auto. split; [rewrite !app_length; cbn; lia|].
    intros r'. rewrite <- !app_assoc. cbn [app]. eapply IE_cons; [apply (H p w0); auto|auto|].
    match goal with |- ielems ?a _ _ _ => match type of (H' r') with ielems ?b _ _ _ => replace a with b end end; [apply H'|]. rewrite !len_app, !len_cons, !len_app. lia.
  - intros p w t k w' s it w'' r Hw Hk Hw' _ (w0 & t0 & -> & Hw0 & Hl & Hb & He & H) Hw''. apply gchars_app in Hk as [Hl2 Hk].
    exists (w ++ x22 :: t ++ w' ++ x3a :: w0 ++ t0 ++ w'' ++ [x7d]). split. { repeat (rewrite <- !app_assoc; cbn [app]). reflexivity. } split; [rewrite !app_length; cbn; lia|].
    intros r'. repeat (rewrite <- !app_assoc; cbn [app]). econstructor; eauto.
  - intros p w t k w' s it w'' s' ms r Hw Hk Hw' _ (w0 & t0 & -> & Hw0 & Hl & Hb & He & H) Hw'' _ (t' & -> & Hl' & H'). apply gchars_app in Hk as [Hl2 Hk].
    exists (w ++ x22 :: t ++ w' ++ x3a :: w0 ++ t0 ++ w'' ++ x2c :: t'). split. { repeat (rewrite <- !app_assoc; cbn [app]). reflexivity. } split; [rewrite !app_length; cbn; lia|].
    intros r'. repeat (rewrite <- !app_assoc; cbn [app]). eapply IM_cons; eauto.
    match goal with |- imembers ?a _ _ _ => match type of (H' r') with imembers ?b _ _ _ => replace a with b end end; [apply H'|]. rewrite !len_app, !len_cons, !len_app. lia.
Qed.

Lemma ielems_len p s l r : ielems p s l r -> exists t, s = t ++ r /\ (1 <= length t)%nat.
Proof.
  induction 1 as [p s it w r H Hw|p s it w s' l r H Hw H' (t' & -> & Hl)].
  - apply ival_places in H as (w0 & t & -> & _ & Hl & _). exists (w0 ++ t ++ w ++ [x5d]). rewrite <- !app_assoc. split; auto. rewrite !app_length. cbn. lia.
  - apply ival_places in H as (w0 & t & -> & _ & Hl' & _). exists (w0 ++ t ++ w ++ x2c :: t'). rewrite <- !app_assoc. split; auto. rewrite !app_length. cbn. lia.
Qed.

Lemma imembers_len p s l r : imembers p s l r -> exists t, s = t ++ r /\ (1 <= length t)%nat.
Proof.
  induction 1 as [p w t k w' s it w'' r Hw Hk Hw' H Hw''|p w t k w' s it w'' s' ms r Hw Hk Hw' H Hw'' H' (t' & -> & Hl)].
  - apply ival_places in H as (w0 & t0 & -> & _ & Hl & _). exists (w ++ x22 :: t ++ w' ++ x3a :: w0 ++ t0 ++ w'' ++ [x7d]). split; [repeat (rewrite <- !app_assoc; cbn [app]); reflexivity|]. rewrite !app_length. cbn. lia.
  - apply ival_places in H as (w0 & t0 & -> & _ & Hl' & _). exists (w ++ x22 :: t ++ w' ++ x3a :: w0 ++ t0 ++ w'' ++ x2c :: t'). split; [repeat (rewrite <- !app_assoc; cbn [app]); reflexivity|]. rewrite !app_length. cbn. lia.
Qed.

(** ** Token lists *)

(** the tokens after the first lie inside *)
Definition inside (it : item) : Prop := exists rest, tokens_of it = head_token it :: rest /\ Forall (fun t => begin_of it < t_start t < t_end (head_token it)) rest.

Lemma head_start it : t_start (head_token it) = begin_of it \/ t_start (head_token it) = begin_of it + 1.
Proof. destruct it; cbn; auto. Qed.

Lemma head_range p s it r : ival p s it r -> p <= begin_of it /\ begin_of it <= t_start (head_token it) < end_of it /\ t_end (head_token it) <= end_of it /\ end_of it = p + (len s - len r) /\
  (t_start (head_token it) <= t_end (head_token it)).
Proof.
  intros H. pose proof (ival_places _ _ _ _ H) as (w & t & -> & _ & Hl & Hb & He & _). rewrite Hb, He, !len_app. pose proof (len_pos w).
  assert (1 <= len t) by (unfold len; lia). inversion H; subst; cbn [head_token t_start t_end begin_of end_of] in *; try lia.
  match goal with HG : gchars (?a ++ ?b) _ ?b |- _ => pose proof (proj1 (gchars_app _ _ _ HG)); assert (1 <= len a) by (unfold len; lia) end. lia.
Qed.

Definition within (lo hi : Z) (ts : list token) : Prop := Forall (fun t => lo <= t_start t < hi) ts.

Lemma within_mono lo hi lo' hi' ts : lo' <= lo -> hi <= hi' -> within lo hi ts -> within lo' hi' ts.
Proof. intros H1 H2. apply Forall_impl. intros t. lia. Qed.

Lemma ival_tokens p s it r : ival p s it r -> inside it /\ within p (end_of it) (tokens_of it).
Proof.
  revert p s it r.
  apply (ival_ind2 (fun p s it r => inside it /\ within p (end_of it) (tokens_of it))
    (fun p s l r => within p (p + (len s - len r)) (flat_map tokens_of l))
    (fun p s ms r => within p (p + (len s - len r)) (flat_map (fun m => mkTok TString (fst (snd (fst m)) + 1) (snd (snd (fst m)) - 1) :: tokens_of (snd m)) ms))).
  - intros p w t r Hw Ht. cbn [tokens_of end_of]. split; [exists []; split; auto|]. constructor; [|constructor]. cbn [t_start]. pose proof (len_pos w). apply primitive_len in Ht. assert (1 <= len t) by (unfold len; lia). lia.
  - intros p w t cs r Hw Ht. cbn [tokens_of end_of]. split; [exists []; split; auto|]. constructor; [|constructor]. cbn [t_start]. pose proof (len_pos w). apply gchars_app in Ht as [Ht _]. assert (1 <= len t) by (unfold len; lia). lia.
  - intros p w w' r Hw Hw'. cbn [tokens_of end_of flat_map]. split; [exists []; split; auto|]. constructor; [|constructor]. cbn [t_start]. pose proof (len_pos w). pose proof (len_pos w'). lia.
  - intros p w s l r Hw Hl H. cbn [tokens_of end_of]. apply ielems_len in Hl as (t & -> & Ht). rewrite len_app in *. assert (1 <= len t) by (unfold len; lia). pose proof (len_pos w). split.
    + exists (flat_map tokens_of l). split; auto. cbn [begin_of head_token t_end]. eapply Forall_impl; [|exact H]. intros x. cbn. lia.
    + constructor; [cbn [t_start]; lia|]. eapply within_mono; [| |exact H]; lia.
  - intros p w w' r Hw Hw'. cbn [tokens_of end_of flat_map]. split; [exists []; split; auto|]. constructor; [|constructor]. cbn [t_start]. pose proof (len_pos w). pose proof (len_pos w'). lia.
  - intros p w s l r Hw Hl H. cbn [tokens_of end_of]. apply imembers_len in Hl as (t & -> & Ht). rewrite len_app in *. assert (1 <= len t) by (unfold len; lia). pose proof (len_pos w). split.
    + eexists. split; [reflexivity|]. cbn [begin_of head_token t_end]. eapply Forall_impl; [|exact H]. intros x. cbn. lia.
    + constructor; [cbn [t_start]; lia|]. eapply within_mono; [| |exact H]; lia.
  - intros p s it w r Hv [_ H] Hw. cbn [flat_map]. rewrite app_nil_r. apply head_range in Hv as (_ & _ & _ & He & _). rewrite len_app, len_cons in He. pose proof (len_pos w). eapply within_mono; [| |exact H]; lia.
  - intros p s it w s' l r Hv [_ H] Hw Hl H'. cbn [flat_map]. apply ival_places in Hv as (w0 & t0 & -> & _ & _ & Hb & He & _). apply ielems_len in Hl as (t & -> & Ht). rewrite !len_app, !len_cons, !len_app in *.
    pose proof (len_pos w). pose proof (len_pos t). pose proof (len_pos w0). pose proof (len_pos t0). apply Forall_app. split; [eapply within_mono; [| |exact H]; lia|eapply within_mono; [| |exact H']; lia].
  - intros p w t k w' s it w'' r Hw Hk Hw' Hv [_ H] Hw''. cbn [flat_map fst snd]. apply gchars_app in Hk as [Hk _]. assert (1 <= len t) by (unfold len; lia). apply ival_places in Hv as (w0 & t0 & -> & _ & _ & Hb & He & _).
    rewrite !len_app, !len_cons, !len_app, !len_cons, !len_app, !len_cons in *. pose proof (len_pos w). pose proof (len_pos w'). pose proof (len_pos w''). pose proof (len_pos w0). pose proof (len_pos t0).
    rewrite app_nil_r. constructor; [cbn [t_start]; lia|]. eapply within_mono; [| |exact H]; lia.
  - intros p w t k w' s it w'' s' ms r Hw Hk Hw' Hv [_ H] Hw'' Hl H'. cbn [flat_map fst snd]. apply gchars_app in Hk as [Hk _]. assert (1 <= len t) by (unfold len; lia). apply ival_places in Hv as (w0 & t0 & -> & _ & _ & Hb & He & _).
    apply imembers_len in Hl as (t' & -> & Ht). rewrite !len_app, !len_cons, !len_app, !len_cons, !len_app, !len_cons, !len_app in *.
    pose proof (len_pos w). pose proof (len_pos w'). pose proof (len_pos w''). pose proof (len_pos w0). pose proof (len_pos t0). pose proof (len_pos t').
    cbn [app]. constructor; [cbn [t_start]; lia|]. apply Forall_app. split; [eapply within_mono; [| |exact H]; lia|eapply within_mono; [| |exact H']; lia].
Qed.

(** ** arrayTokens *)

Lemma array_scan_skip rest more after before : Forall (fun t => t_start t < after) rest -> array_scan (rest ++ more) after before = array_scan more after before.
Proof. induction 1 as [|t rest Ht H IH]; cbn [app array_scan]; auto. destruct (Z.ltb_spec (t_start t) after); [auto|lia]. Qed.

Lemma array_scan_item p s it r more after before : ival p s it r -> after <= p -> end_of it <= before ->
  array_scan (tokens_of it ++ more) after before = head_token it :: array_scan more (t_end (head_token it)) before.
Proof.
  intros H Ha Hb. destruct (ival_tokens _ _ _ _ H) as [(rest & -> & Hr) _]. pose proof (head_range _ _ _ _ H). cbn [app array_scan].
  destruct (Z.ltb_spec (t_start (head_token it)) after); [lia|]. destruct (Z.ltb_spec before (t_start (head_token it))); [lia|]. f_equal.
  apply array_scan_skip. eapply Forall_impl; [|exact Hr]. intros t. cbn. lia.
Qed.

Lemma array_scan_items p s l r : ielems p s l r -> forall after before, after <= p -> p + (len s - len r) <= before ->
  array_scan (flat_map tokens_of l) after before = map head_token l.
Proof.
  induction 1 as [p s it w r H Hw|p s it w s' l r H Hw H' IH]; intros after before Ha Hb; cbn [flat_map map].
  - pose proof (head_range _ _ _ _ H) as R. rewrite len_app, len_cons in R. pose proof (len_pos w). erewrite array_scan_item by (eauto; lia). reflexivity.
  - pose proof (head_range _ _ _ _ H) as R. rewrite len_app, len_cons in R. pose proof (len_pos w). pose proof (ielems_len _ _ _ _ H') as (t & -> & _). rewrite len_app in *. pose proof (len_pos t).
    erewrite array_scan_item by (eauto; lia). f_equal. apply IH; lia.
Qed.

Lemma array_scan_root p s l b e r : ival p s (Arr l b e) r -> exists ts, tokens_of (Arr l b e) = mkTok TArray b e :: ts /\ array_scan ts b e = map head_token l.
Proof.
  intros H. inversion H; subst; cbn [tokens_of]; eexists; (split; [reflexivity|]); [reflexivity|]. eapply array_scan_items; eauto; lia.
Qed.

(** ** Documents *)

(** the pieces [b, e) of a document that spell a child *)
Lemma document_ival data b e it : document data b e it -> exists pre t post, data = pre ++ t ++ post /\ len pre = begin_of it /\ len pre + len t = end_of it /\
  b <= begin_of it /\ end_of it <= e /\ (forall r, ival (begin_of it) (t ++ r) it r).
Proof.
  intros (pre & s & w & post & -> & -> & -> & H & Hw). pose proof (ival_places _ _ _ _ H) as (w0 & t & -> & Hw0 & Hl & Hb & He & Hi).
  exists (pre ++ w0), t, (w ++ post). rewrite <- !app_assoc, !len_app. pose proof (len_pos w0). pose proof (len_pos w). repeat split; auto; try lia.
  intros r. apply (Hi (begin_of it) [] r); [constructor|]. rewrite Hb, len_nil. lia.
Qed.

Lemma document_self data b e it : document data b e it -> document data (begin_of it) (end_of it) it.
Proof.
  intros H. apply document_ival in H as (pre & t & post & -> & Hb & He & _ & _ & H). exists pre, t, [], post. split; auto. split; auto. split; auto. split; [|constructor].
  specialize (H []). rewrite app_nil_r in H. exact H.
Qed.

Lemma ielems_child p s l r : ielems p s l r -> forall it, In it l -> exists t1 t2 r', s = t1 ++ t2 ++ r' /\ len r < len r' /\ p + len t1 = begin_of it /\ p + len t1 + len t2 = end_of it /\ ival (begin_of it) t2 it [].
Proof.
  assert (Hone : forall p s it r, ival p s it r -> exists t1 t2, s = t1 ++ t2 ++ r /\ p + len t1 = begin_of it /\ p + len t1 + len t2 = end_of it /\ ival (begin_of it) t2 it []).
  { clear. intros p s it r H. apply ival_places in H as (w0 & t & -> & Hw0 & Hl & Hb & He & H). exists w0, t. split; [reflexivity|]. repeat split; try lia.
    rewrite Hb. specialize (H (p + len w0) [] []). rewrite len_nil, !app_nil_r, Z.add_0_r in H. apply H; [constructor|auto]. }
  induction 1 as [p s it w r H Hw|p s it w s' l r H Hw H' IH]; intros i Hi.
  - destruct Hi as [<-|[]]. apply Hone in H as (t1 & t2 & -> & H). exists t1, t2. eexists. split; [reflexivity|]. split; auto. rewrite len_app, len_cons. pose proof (len_pos w). lia.
  - destruct (ielems_len _ _ _ _ H') as (t' & Es & Ht'). destruct Hi as [<-|Hi].
    + apply Hone in H as (t1 & t2 & -> & H). exists t1, t2. eexists. split; [reflexivity|]. split; auto. rewrite Es, len_app, len_cons, len_app. pose proof (len_pos w). pose proof (len_pos t'). lia.
    + apply IH in Hi as (t1 & t2 & r' & E & Hr & E1 & E2 & Hv). clear Es. subst s'. apply ival_places in H as (w0 & t & -> & Hw0 & Hl & _). exists (w0 ++ t ++ w ++ x2c :: t1), t2, r'.
      rewrite <- !app_assoc. cbn [app]. split; [reflexivity|]. rewrite !len_app, !len_cons, !len_app in *. repeat split; auto; lia.
Qed.

Lemma imembers_child p s ms r : imembers p s ms r -> forall k kb ke it, In (k, (kb, ke), it) ms ->
  (exists t1 t2 r', s = t1 ++ t2 ++ r' /\ len r < len r' /\ p + len t1 = begin_of it /\ p + len t1 + len t2 = end_of it /\ ival (begin_of it) t2 it []) /\
  (exists t1 t2 r', s = t1 ++ t2 ++ r' /\ len r < len r' /\ p + len t1 = kb /\ p + len t1 + len t2 = ke /\ ival kb t2 (Str k kb ke) []).
Proof.
  assert (Hone : forall p w t k w' s it r r0, white w -> gchars (t ++ w' ++ x3a :: s) k (w' ++ x3a :: s) -> white w' -> ival (p + len w + 1 + len t + len w' + 1) s it r -> len r0 < len r ->
    (exists t1 t2 r', w ++ x22 :: t ++ w' ++ x3a :: s = t1 ++ t2 ++ r' /\ len r0 < len r' /\ p + len t1 = begin_of it /\ p + len t1 + len t2 = end_of it /\ ival (begin_of it) t2 it []) /\
    (exists t1 t2 r', w ++ x22 :: t ++ w' ++ x3a :: s = t1 ++ t2 ++ r' /\ len r0 < len r' /\ p + len t1 = p + len w /\ p + len t1 + len t2 = p + len w + 1 + len t /\ ival (p + len w) t2 (Str k (p + len w) (p + len w + 1 + len t)) [])).
  { clear. intros p w t k w' s it r r0 Hw Hk Hw' H Hr. apply ival_places in H as (w0 & t0 & -> & Hw0 & Hl & Hb & He & H). split.
    - exists (w ++ x22 :: t ++ w' ++ x3a :: w0), t0, r. split; [repeat (rewrite <- !app_assoc; cbn [app]); reflexivity|]. split; auto.
      rewrite !len_app, !len_cons, !len_app, !len_cons. repeat split; try lia.
      rewrite Hb. specialize (H (begin_of it) [] []). rewrite len_nil, !app_nil_r, Z.add_0_r in H. rewrite <- Hb. apply H; [constructor|auto].
    - exists w, (x22 :: t). eexists. split; [reflexivity|]. split. { rewrite len_app, len_cons, !len_app. pose proof (len_pos w'). pose proof (len_pos w0). pose proof (len_pos t0). lia. } rewrite len_cons. repeat split; try lia.
      apply gchars_app in Hk as [_ Hk]. pose proof (I_str (p + len w) [] t k [] ltac:(constructor) (Hk [])) as I. rewrite len_nil, Z.add_0_r, app_nil_r in I. exact I. }
  induction 1 as [p w t k w' s it w'' r Hw Hk Hw' H Hw''|p w t k w' s it w'' s' ms r Hw Hk Hw' H Hw'' H' IH]; intros k0 kb ke i Hi.
  - destruct Hi as [E|[]]. injection E as <- <- <- <-. eapply Hone; eauto. rewrite len_app, len_cons. pose proof (len_pos w''). lia.
  - destruct Hi as [E|Hi].
    { injection E as <- <- <- <-. eapply Hone; eauto. destruct (imembers_len _ _ _ _ H') as (t' & -> & _). rewrite len_app, len_cons, len_app. pose proof (len_pos w''). pose proof (len_pos t'). lia. }
    apply ival_places in H as (w0 & t0 & -> & Hw0 & Hl & _).
    assert (Hx : forall x, p + len (w ++ x22 :: t ++ w' ++ x3a :: w0 ++ t0 ++ w'' ++ x2c :: x) = p + len w + 1 + len t + len w' + 1 + (len (w0 ++ t0 ++ w'' ++ x2c :: s') - len s') + len x).
    { intros x. rewrite !len_app, !len_cons, !len_app, !len_cons, !len_app, !len_cons. lia. }
    destruct (IH _ _ _ _ Hi) as [(t1 & t2 & r1 & E & E0 & E1 & E2 & Hv) (t1' & t2' & r1' & E' & E0' & E1' & E2' & Hv')]. split.
    + exists (w ++ x22 :: t ++ w' ++ x3a :: w0 ++ t0 ++ w'' ++ x2c :: t1), t2, r1. rewrite Hx. split; [|split; [lia|split; [lia|split; [lia|auto]]]]. rewrite E. repeat (rewrite <- !app_assoc; cbn [app]). reflexivity.
    + exists (w ++ x22 :: t ++ w' ++ x3a :: w0 ++ t0 ++ w'' ++ x2c :: t1'), t2', r1'. rewrite Hx. split; [|split; [lia|split; [lia|auto]]]. rewrite E'. repeat (rewrite <- !app_assoc; cbn [app]). reflexivity.
Qed.

Lemma document_child data b e root it : document data b e root -> child it root ->
  document data (begin_of it) (end_of it) it /\ begin_of root < begin_of it /\ begin_of it < end_of it /\ end_of it < end_of root.
Proof.
  intros (pre & s & w & post & -> & -> & -> & H & Hw) Hc.
  assert (Hx : forall t1 t2 r', s = t1 ++ t2 ++ r' -> len pre + len t1 = begin_of it -> len pre + len t1 + len t2 = end_of it -> ival (begin_of it) t2 it [] ->
     document (pre ++ s ++ post) (begin_of it) (end_of it) it).
  { intros t1 t2 r' -> E1 E2 Hv. exists (pre ++ t1), t2, [], (r' ++ post). rewrite <- !app_assoc, len_app. repeat split; auto; try lia. constructor. }
  assert (Hy : forall c w0 t1 t2 r' b e s0, s = w0 ++ c :: s0 -> s0 = t1 ++ t2 ++ r' -> len w < len r' -> len pre + len w0 + 1 + len t1 = begin_of it -> len pre + len w0 + 1 + len t1 + len t2 = end_of it -> ival (begin_of it) t2 it [] ->
     b = len pre + len w0 -> e = len pre + len w0 + 1 + (len s0 - len w) ->
     document (pre ++ s ++ post) (begin_of it) (end_of it) it /\ b < begin_of it /\ begin_of it < end_of it /\ end_of it < e).
  { intros c w0 t1 t2 r' b e s0 -> -> Hr E1 E2 Hv -> ->. split.
    - apply (Hx (w0 ++ c :: t1) t2 r'); auto; rewrite ?len_app, ?len_cons; try lia. now rewrite <- app_assoc.
    - pose proof (head_range _ _ _ _ Hv). rewrite !len_app. pose proof (len_pos t1). lia. }
  inversion H; subst; cbn [child begin_of end_of] in *; try tauto.
  - destruct Hc.
  - match goal with HE : ielems _ ?s0 ?l _ |- _ => destruct (ielems_child _ _ _ _ HE _ Hc) as (t1 & t2 & r' & E & Hr & E1 & E2 & Hv) end.
    eapply Hy; eauto.
  - destruct Hc as (m & [] & _).
  - destruct Hc as ([[k [kb ke]] v] & Hm & Hc). cbn [fst snd] in Hc.
    match goal with HE : imembers _ ?s0 ?l _ |- _ => destruct (imembers_child _ _ _ _ HE _ _ _ _ Hm) as [(t1 & t2 & r' & E & Hr & E1 & E2 & Hv) (t1' & t2' & r1' & E' & Hr' & E1' & E2' & Hv')] end.
    destruct Hc as [-> | ->].
    + eapply (Hy _ _ t1 t2 r'); eauto.
    + eapply (Hy _ _ t1' t2' r1'); cbn [begin_of end_of]; eauto.
Qed.

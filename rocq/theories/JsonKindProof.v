(** Proofs for C109: documents of another kind. *)
From Verif Require Import Base JsonSpec JsonModel JsonProof JsonProof2 JsonDenotes EniModel CliSpec CliModel EniProof JsonExSpec JsonExModel JsonExProof JsonExProof2 JsonExProof3 ToolsProof EniProof JsonKindSpec.
From Coq Require Import List Arith NArith ZArith Bool Lia.
From Coq.Init Require Import Byte.
Import ListNotations.
Local Open Scope Z_scope.

(** ------------------------------------------------------------------ arrayTokens of an object *)

Definition pair_of (m : bytes * (Z * Z) * item) : list item := [Str (fst (fst m)) (fst (snd (fst m))) (snd (snd (fst m))); snd m].

Lemma array_scan_member p s it r k kb ke more after before :
  ival p s it r -> after <= kb -> kb < ke -> ke <= p -> end_of it <= before ->
  array_scan (ftok (k, (kb, ke), it) ++ more) after before = head_token (Str k kb ke) :: head_token it :: array_scan more (t_end (head_token it)) before.
Proof.
  intros H Ha Hk Hp Hb. pose proof (head_range _ _ _ _ H). unfold ftok. cbn [fst snd app array_scan t_start t_end head_token].
  destruct (Z.ltb_spec (kb + 1) after); [lia|]. destruct (Z.ltb_spec before (kb + 1)); [lia|]. f_equal. erewrite array_scan_item by (eauto; lia). reflexivity.
Qed.

Lemma array_scan_members p s ms r : imembers p s ms r -> forall after before, after <= p -> p + (len s - len r) <= before ->
  array_scan (flat_map ftok ms) after before = map head_token (flat_map pair_of ms).
Proof.
  induction 1 as [p w t k w' s it w'' r Hw Hk Hw' H Hw''|p w t k w' s it w'' s' ms r Hw Hk Hw' H Hw'' H' IH]; intros after before Ha Hb; cbn [flat_map].
  - pose proof (head_range _ _ _ _ H) as R. apply gchars_app in Hk as [Ht _]. assert (1 <= len t) by (unfold len; lia). rewrite !len_app, !len_cons, !len_app, !len_cons in *. pose proof (len_pos w). pose proof (len_pos w'). pose proof (len_pos w'').
    erewrite array_scan_member; [reflexivity|eauto|lia|lia|lia|lia].
  - pose proof (head_range _ _ _ _ H) as R. apply gchars_app in Hk as [Ht _]. assert (1 <= len t) by (unfold len; lia). destruct (imembers_len _ _ _ _ H') as (t' & -> & _). rewrite !len_app, !len_cons, !len_app, !len_cons in *. pose proof (len_pos w). pose proof (len_pos w'). pose proof (len_pos w''). pose proof (len_pos t').
    erewrite array_scan_member; [|eauto|lia|lia|lia|lia]. rewrite map_app. cbn [pair_of map app fst snd]. f_equal. f_equal. apply IH; lia.
Qed.

Lemma parts_scan p s root r : ival p s root r -> exists t ts, tokens_of root = t :: ts /\ array_scan ts (t_start t) (t_end t) = map head_token (parts root).
Proof.
  intros H. destruct root as [b e|cs b e|l b e|ms b e].
  - eexists _, []. split; reflexivity.
  - eexists _, []. split; reflexivity.
  - destruct (array_scan_root _ _ _ _ _ _ H) as (ts & E & S). eexists _, ts. split; [exact E|exact S].
  - cbn [tokens_of]. eexists _, _. split; [reflexivity|]. cbn [t_start t_end parts]. inversion H; subst; [reflexivity|].
    change (array_scan (flat_map ftok ms) (p + len w) (p + len w + 1 + (len s0 - len r)) = map head_token (flat_map pair_of ms)). eapply array_scan_members; eauto; lia.
Qed.

Lemma parts_child root it : In it (parts root) -> child it root.
Proof.
  destruct root as [b e|cs b e|l b e|ms b e]; cbn; try tauto. rewrite in_flat_map. intros (m & Hm & [<-|[<-|[]]]); eauto.
Qed.

(** ------------------------------------------------------------------ objectTokens of an array *)

(** the character before an element *)
Definition opens (c : byte) : Prop := white_char c \/ c = x5b \/ c = x2c.

Lemma ielems_prev p s l r : ielems p s l r -> forall it, In it l -> begin_of it = p \/ exists u c v, s = u ++ c :: v /\ p + len u + 1 = begin_of it /\ opens c.
Proof.
  assert (Hone : forall p s it r, ival p s it r -> begin_of it = p \/ exists u c v, s = u ++ c :: v /\ p + len u + 1 = begin_of it /\ opens c).
  { clear. intros p s it r H. apply ival_places in H as (w & t & -> & Hw & _ & Hb & _). destruct w as [|c0 w0]; [left; rewrite Hb, len_nil; lia|right].
    destruct (exists_last (l := c0 :: w0)) as (u & c & E); [discriminate|]. rewrite E in *. exists u, c, (t ++ r). rewrite <- app_assoc. split; [reflexivity|].
    rewrite len_app, len_cons, len_nil in Hb. split; [lia|]. left. apply Forall_app in Hw as [_ Hw]. now inversion Hw. }
  induction 1 as [p s it w r H Hw|p s it w s' l r H Hw H' IH]; intros x Hx.
  - destruct Hx as [<-|[]]. eauto.
  - destruct Hx as [<-|Hx]; [eauto|]. right. specialize (IH x Hx). apply ival_places in H as (w0 & t & -> & _ & _ & _).
    assert (E : w0 ++ t ++ w ++ x2c :: s' = (w0 ++ t ++ w) ++ x2c :: s') by now rewrite <- !app_assoc.
    destruct IH as [E1|(u & c & v & -> & E1 & Hc)].
    + exists (w0 ++ t ++ w), x2c, s'. split; [exact E|]. split; [|right; now right]. rewrite E1. rewrite !len_app, len_cons. lia.
    + exists ((w0 ++ t ++ w) ++ x2c :: u), c, v. split; [rewrite E, <- (app_assoc (w0 ++ t ++ w)); reflexivity|]. split; [|exact Hc]. rewrite <- E1. repeat (rewrite ?len_app, ?len_cons). lia.
Qed.

Lemma prev_char data b e l lb le it : document data b e (Arr l lb le) -> In it l -> exists u c v, data = u ++ c :: v /\ len u + 1 = begin_of it /\ opens c.
Proof.
  intros (pre & s & w & post & -> & -> & -> & H & Hw) Hi. inversion H as [| |? ? ? ? ? ?|p w0 s0 l0 r0 Hw0 He E1 E2 E3 E4| |]; subst; [destruct Hi|].
  destruct (ielems_prev _ _ _ _ He it Hi) as [E|(u & c & v & -> & E & Hc)].
  - exists (pre ++ w0), x5b, (s0 ++ post). split; [now rewrite <- !app_assoc|]. split; [rewrite E, len_app; lia|right; now left].
  - exists (pre ++ w0 ++ x5b :: u), c, (v ++ post). split; [rewrite <- !app_assoc; cbn [app]; now rewrite <- app_assoc|]. split; [rewrite <- E, !len_app, len_cons; lia|exact Hc].
Qed.

(** a text that begins with such a character and then with anything but a string is not read as a string *)
Lemma first_char p t it r : ival p (t ++ r) it r -> begin_of it <= p -> ~ is_str it -> exists c t', t = c :: t' /\ c <> x22 /\ ~ white_char c.
Proof.
  intros H Hp Hn. assert (Hw : forall w, p + len w <= p -> w = []) by (intros w; destruct w; auto; rewrite len_cons; pose proof (len_pos w); lia).
  assert (X : forall c y, t ++ r = c :: y -> (t = [] -> False) -> exists t', t = c :: t') by (intros c y E N; destruct t as [|c' t']; [now destruct N|injection E as -> _; eauto]).
  assert (N : t = [] -> False).
  { intros ->. cbn [app] in H. pose proof (head_range _ _ _ _ H). lia. }
  inversion H as [? w0 t0 ? Hw0 Ht|? w0 t0 cs ? Hw0 Hc|? w0 w' ? Hw0 Hw'|? w0 s0 l0 ? Hw0 He|? w0 w' ? Hw0 Hw'|? w0 s0 ms ? Hw0 He]; subst; cbn [begin_of is_str] in *; try tauto; assert (w0 = []) by (apply Hw; lia); subst w0; cbn [app] in *.
  - match goal with E : t0 ++ r = t ++ r |- _ => apply app_inv_tail in E; subst t0 end. destruct Ht as [| | |c t' Hc _]; [exists x74|exists x66|exists x6e|exists c]; eexists; (split; [reflexivity|]); try (split; [discriminate|cbn; intuition discriminate]).
    split; [intros ->|intros W; cbn in W; decompose [or] W; try contradiction; subst c]; (destruct Hc as [Hc|Hc]; [unfold digit in Hc; vm_compute in Hc; destruct Hc as [Hc _]; now apply Hc|discriminate]).
  - match goal with E : _ = t ++ r |- _ => destruct (X x5b _ (eq_sym E) N) as (t' & ->) end. exists x5b, t'. split; [reflexivity|split; [discriminate|cbn; intuition discriminate]].
  - match goal with E : _ = t ++ r |- _ => destruct (X x5b _ (eq_sym E) N) as (t' & ->) end. exists x5b, t'. split; [reflexivity|split; [discriminate|cbn; intuition discriminate]].
  - match goal with E : _ = t ++ r |- _ => destruct (X x7b _ (eq_sym E) N) as (t' & ->) end. exists x7b, t'. split; [reflexivity|split; [discriminate|cbn; intuition discriminate]].
  - match goal with E : _ = t ++ r |- _ => destruct (X x7b _ (eq_sym E) N) as (t' & ->) end. exists x7b, t'. split; [reflexivity|split; [discriminate|cbn; intuition discriminate]].
Qed.

Lemma not_string_text lits c0 c y s r : opens c0 -> c <> x22 -> ~ white_char c -> ~ gval lits (c0 :: c :: y) (AStr s) r.
Proof.
  intros H0 H1 H2 G. inversion G as [| | |w s' cs r' Hw Hc E| | | |]; subst. destruct w as [|c1 w].
  - injection E as <- _. destruct H0 as [H0|[H0|H0]]; try discriminate H0. cbn in H0. intuition discriminate.
  - injection E as -> E. destruct w as [|c2 w]; injection E as <- _; [now apply H1|]. apply H2. inversion Hw as [|? ? _ Hw2]; subst. now inversion Hw2.
Qed.

Section Pairs.
  Variable jsmn : bytes -> Z -> Z -> outcome (Z * list token).
  Variable inner : bytes -> layout.

  Lemma object_scan_item data p s it r more after before key m : ival p s it r -> after <= p -> end_of it <= before ->
    object_scan inner data (tokens_of it ++ more) after before key m =
    match key with
    | None => object_scan inner data more (t_end (head_token it)) before (Some (head_token it)) m
    | Some kt => k <- get_key inner data kt ;; object_scan inner data more (t_end (head_token it)) before None ((k, head_token it) :: m)
    end.
  Proof.
    intros H Ha Hb. destruct (ival_tokens _ _ _ _ H) as [(rest & -> & Hr) _]. pose proof (head_range _ _ _ _ H). cbn [app object_scan].
    destruct (Z.ltb_spec (t_start (head_token it)) after); [lia|]. destruct (Z.ltb_spec before (t_start (head_token it))); [lia|].
    assert (Hs : Forall (fun t => t_start t < t_end (head_token it)) rest) by (eapply Forall_impl; [|exact Hr]; intros t; cbn; lia).
    destruct key as [kt|]; [|now apply object_scan_skip]. destruct (get_key inner data kt); cbn [bind]; auto. now apply object_scan_skip.
  Qed.

  Definition pair_binding (x : bytes * item) : bytes * token := (fst x, head_token (snd x)).

  (** the characters getkey takes for an element that is no string *)
  Lemma get_raw data b e l lb le it : document data b e (Arr l lb le) -> (N.of_nat (length data) < 2^28)%N -> In it l -> ~ is_str it ->
    get_key inner data (head_token it) = parse_string_fn inner (around data it) /\
    (N.of_nat (length (around data it)) < 2^28)%N /\ forall lits k r, ~ gval lits (around data it) (AStr k) r.
  Proof.
    intros Hd Hl Hi Hn. destruct (prev_char _ _ _ _ _ _ _ Hd Hi) as (u & c0 & v & Eu & Lu & Ho). destruct (document_child _ _ _ _ it Hd Hi) as (Dc & B1 & B2 & B3). cbn [begin_of end_of] in *.
    pose proof (document_nonneg _ _ _ _ Hd) as (N1 & N2 & N3 & N4). cbn [begin_of end_of] in *.
    destruct (document_ival _ _ _ _ Dc) as (pre & t & post & Ed & Lp & Lt & _ & _ & Hv). destruct (first_char _ _ _ _ (Hv []) ltac:(lia) Hn) as (c & t' & Et & Hq & Hw).
    unfold len in N4. change (2^28)%N with 268435456%N in *.
    assert (Es : skipn (Z.to_nat (begin_of it - 1)) data = c0 :: t ++ post).
    { replace (Z.to_nat (begin_of it - 1)) with (length u) by (unfold len in Lu; lia). rewrite Eu, skipn_app, skipn_all, Nat.sub_diag. cbn [app]. change (skipn 0 ?x) with x. f_equal.
      assert (S1 : skipn (S (length u)) data = v) by (rewrite Eu; replace (S (length u)) with (length (u ++ [c0])) by (rewrite app_length; cbn; lia); replace (u ++ c0 :: v) with ((u ++ [c0]) ++ v) by (rewrite <- app_assoc; reflexivity); now rewrite skipn_app, skipn_all, Nat.sub_diag).
      assert (S2 : skipn (S (length u)) data = t ++ post) by (rewrite Ed; replace (S (length u)) with (length pre) by (unfold len in *; lia); now rewrite skipn_app, skipn_all, Nat.sub_diag).
      congruence. }
    assert (Ea : exists y, around data it = c0 :: c :: y).
    { unfold around. rewrite Es, Et. replace (Z.to_nat (end_of it + 1 - (begin_of it - 1))) with (S (S (Z.to_nat (end_of it - begin_of it)))) by lia. cbn [app firstn]. eauto. }
    split; [|split].
    - unfold get_key. assert (T1 : t_start (head_token it) = begin_of it) by (destruct it; [reflexivity|now destruct Hn|reflexivity|reflexivity]). assert (T2 : t_end (head_token it) = end_of it) by (destruct it; [reflexivity|now destruct Hn|reflexivity|reflexivity]).
      rewrite T1, T2, !int_add_ok by lia. cbn [bind]. replace (begin_of it + -1) with (begin_of it - 1) by lia.
      destruct (Z.leb_spec 0 (begin_of it - 1)); [|lia]. destruct (Z.leb_spec (begin_of it - 1) (end_of it + 1)); [|lia]. destruct (Z.leb_spec (end_of it + 1) (Z.of_nat (length data) + 1)); [|lia]. cbn [andb].
      f_equal. unfold around. rewrite skipn_app, firstn_app. rewrite skipn_length. replace (Z.to_nat (end_of it + 1 - (begin_of it - 1)) - (length data - Z.to_nat (begin_of it - 1)))%nat with 0%nat by lia. cbn [firstn]. now rewrite app_nil_r.
    - unfold around. rewrite firstn_length, skipn_length. lia.
    - intros lits k r. destruct Ea as (y & ->). now apply not_string_text.
  Qed.

  Lemma key_ok data b e l lb le it k : document data b e (Arr l lb le) -> (N.of_nat (length data) < 2^28)%N -> In it l -> key_of inner data it k ->
    get_key inner data (head_token it) = Ret k.
  Proof.
    intros Hd Hl Hi HK. inversion HK as [k0 kb ke|it0 Hn Hu]; subst.
    - exact (get_key_ok _ _ _ _ _ _ _ (proj1 (document_child _ _ _ _ (Str k kb ke) Hd Hi)) Hl).
    - destruct (get_raw _ _ _ _ _ _ _ Hd Hl Hi Hn) as (-> & Hs & _). unfold parse_string_fn. destruct (parse_ok (inner (around data it)) _ Hs) as [(a & r & v & Hg & _)|(_ & ->)]; [|reflexivity].
      now destruct (Hu a r).
  Qed.
  Lemma key_confused data b e l lb le it : document data b e (Arr l lb le) -> (N.of_nat (length data) < 2^28)%N -> In it l -> confused inner data it ->
    get_key inner data (head_token it) = UB TypeConfusion.
  Proof.
    intros Hd Hl Hi (Hn & a & r & Hg). destruct (get_raw _ _ _ _ _ _ _ Hd Hl Hi Hn) as (-> & Hs & Hstr). unfold parse_string_fn.
    destruct (parse_ok (inner (around data it)) _ Hs) as [(a' & r' & v & Hg' & Hb & _ & ->)|(Hno & _)].
    - cbn [bind]. destruct a'; cbn [build] in Hb; try (injection Hb as <-; reflexivity).
      + now destruct (Hstr _ _ _ Hg').
      + destruct v; try reflexivity. exfalso. revert Hb. clear. intros Hb. apply bind_ret in Hb as (x & _ & E). discriminate E.
      + destruct v; try reflexivity. exfalso. revert Hb. clear. intros Hb. apply bind_ret in Hb as (x & _ & E). cbv beta in E. apply bind_ret in E as (y & _ & E). discriminate E.
    - now destruct (Hno a r).
  Qed.

  Lemma object_scan_pairs data l ps rest : paired inner data l ps rest -> forall p s r, ielems p s l r ->
    (forall it k, In it l -> key_of inner data it k -> get_key inner data (head_token it) = Ret k) ->
    forall after before m, after <= p -> p + (len s - len r) <= before ->
    ((length rest <= 1)%nat -> object_scan inner data (flat_map tokens_of l) after before None m = Ret (rev (map pair_binding ps) ++ m)) /\
    (forall it v rest', rest = it :: v :: rest' -> get_key inner data (head_token it) = UB TypeConfusion ->
       object_scan inner data (flat_map tokens_of l) after before None m = UB TypeConfusion).
  Proof.
    induction 1 as [l|it k v l ps rest HK HP IH]; intros p s r H Hg after before m Ha Hb.
    - split.
      + intros Hl. inversion H as [p0 s0 it0 w r0 H1 Hw|p0 s0 it0 w s' l0 r0 H1 Hw H2]; subst.
        * pose proof (head_range _ _ _ _ H1) as R. rewrite len_app, len_cons in R. pose proof (len_pos w). cbn [flat_map]. erewrite object_scan_item by (eauto; lia). reflexivity.
        * inversion H2; subst; cbn [length] in Hl; lia.
      + intros it v rest' -> Hc. inversion H as [|p0 s0 it0 w s' l0 r0 H1 Hw H2]; subst. pose proof (head_range _ _ _ _ H1) as R. rewrite len_app, len_cons in R. pose proof (len_pos w). pose proof (ielems_len _ _ _ _ H2) as (t & -> & _). rewrite len_app in *. pose proof (len_pos t).
        cbn [flat_map]. erewrite object_scan_item by (eauto; lia).
        assert (Hh : exists p' s' r', ival p' s' v r' /\ t_end (head_token it) <= p' /\ end_of v <= before).
        { inversion H2 as [p0 s0 it0 w0 r0 H5 Hw0|p0 s0 it0 w0 s' l0 r0 H5 Hw0 H6]; subst.
          - pose proof (head_range _ _ _ _ H5) as R3. rewrite !len_app, len_cons in R3. pose proof (len_pos w0). eexists _, _, _. split; [exact H5|]. split; lia.
          - pose proof (head_range _ _ _ _ H5) as R3. rewrite !len_app, len_cons in R3. pose proof (len_pos w0). destruct (ielems_len _ _ _ _ H6) as (t4 & -> & _). rewrite ?len_app in *. pose proof (len_pos t4). eexists _, _, _. split; [exact H5|]. split; lia. }
        destruct Hh as (p' & s' & r' & Hv & L1 & L2). erewrite object_scan_item by eauto. now rewrite Hc.
    - inversion H as [p0 s0 it0 w r0 H1 Hw|p0 s0 it0 w s' l0 r0 H1 Hw H2]; subst. pose proof (head_range _ _ _ _ H1) as R. rewrite len_app, len_cons in R. pose proof (len_pos w). pose proof (ielems_len _ _ _ _ H2) as (t & -> & _). rewrite len_app in *. pose proof (len_pos t).
      cbn [flat_map]. erewrite object_scan_item by (eauto; lia).
      inversion H2 as [p0 s0 it0 w0 r0 H5 Hw0|p0 s0 it0 w0 s' l0 r0 H5 Hw0 H6]; subst.
      + inversion HP; subst. pose proof (head_range _ _ _ _ H5) as R3. rewrite !len_app, len_cons in R3. pose proof (len_pos w0). cbn [flat_map].
        erewrite object_scan_item; [|exact H5|lia|lia]. rewrite (Hg it k) by (auto; now left). split; [reflexivity|discriminate].
      + pose proof (head_range _ _ _ _ H5) as R3. rewrite !len_app, len_cons in R3. pose proof (len_pos w0). destruct (ielems_len _ _ _ _ H6) as (t4 & -> & _). rewrite ?len_app in *. pose proof (len_pos t4). cbn [flat_map].
        erewrite object_scan_item; [|exact H5|lia|lia]. rewrite (Hg it k) by (auto; now left). cbn [bind].
        destruct (IH _ _ _ H6 ltac:(intros; apply Hg; [right; now right|assumption]) (t_end (head_token v)) before ((k, head_token v) :: m) ltac:(lia) ltac:(rewrite len_app; lia)) as [I1 I2]. split.
        * intros Hl. rewrite (I1 Hl). cbn [map rev]. rewrite <- app_assoc. reflexivity.
        * exact I2.
  Qed.

  Lemma pairs_tokens data b e l lb le ps rest : document data b e (Arr l lb le) -> jsmn_answers jsmn data b e (Arr l lb le) -> (N.of_nat (length data) < 2^28)%N -> paired inner data l ps rest ->
    ((length rest <= 1)%nat -> object_tokens jsmn inner data b e = Ret (rev (map pair_binding ps))) /\
    (forall it v rest', rest = it :: v :: rest' -> confused inner data it -> object_tokens jsmn inner data b e = UB TypeConfusion).
  Proof.
    intros H Hj Hl HP. unfold object_tokens. rewrite (internal_ok _ _ _ _ _ Hj). cbn [bind tokens_of t_start t_end].
    assert (Hg : forall it k, In it l -> key_of inner data it k -> get_key inner data (head_token it) = Ret k) by (intros it k Hi; now apply (key_ok data b e l lb le)).
    assert (Hc : forall it v rest', rest = it :: v :: rest' -> confused inner data it -> get_key inner data (head_token it) = UB TypeConfusion).
    { intros it v rest' -> Hc. apply (key_confused data b e l lb le); auto. clear -HP. remember (it :: v :: rest') as rr eqn:E. revert it E. induction HP as [l|it0 k v0 l ps rest HK HP IH]; intros it E; subst; [now left|right; right; eauto]. }
    destruct H as (pre & s & w & post & -> & -> & -> & H & Hw). inversion H as [| |? ? ? ? ? ?|p w0 s0 l0 r0 Hw0 He| |]; subst.
    - inversion HP; subst. cbn [flat_map object_scan]. split; [reflexivity|discriminate].
    - destruct (object_scan_pairs _ _ _ _ HP _ _ _ He Hg (len pre + len w0) (len pre + len w0 + 1 + (len s0 - len w)) [] ltac:(lia) ltac:(lia)) as [P1 P2]. rewrite app_nil_r in P1. split; [exact P1|].
      intros it v rest' E X. eapply P2; eauto.
  Qed.

  Lemma last_pair_in k ps it : last_pair k ps = Some it -> In (k, it) ps.
  Proof.
    induction ps as [|[k' v] ps IH]; cbn [last_pair]; [discriminate|]. destruct (last_pair k ps) as [it'|].
    - intros E. right. auto.
    - destruct (bytes_eqb_spec k' k) as [->|]; [|discriminate]. intros E. injection E as ->. now left.
  Qed.
  Lemma paired_in data l ps rest k v : paired inner data l ps rest -> In (k, v) ps -> In v l.
  Proof. induction 1 as [l|it k' v' l ps rest HK HP IH]; cbn; [tauto|]. intros [E|Hi]; [injection E as -> ->; auto|auto]. Qed.

  Lemma map_get_pair k ps : map_get k (rev (map pair_binding ps)) = match last_pair k ps with Some it => head_token it | None => zero_token end.
  Proof.
    assert (Hf : forall m0, match last_pair k ps with
        | Some it => exists k', find (fun p => bytes_eqb (fst p) k) (rev (map pair_binding ps) ++ m0) = Some (k', head_token it)
        | None => find (fun p => bytes_eqb (fst p) k) (rev (map pair_binding ps) ++ m0) = find (fun p => bytes_eqb (fst p) k) m0
        end).
    { induction ps as [|[k' it] ps IH]; intros m0; cbn [map rev last_pair]; [reflexivity|]. rewrite <- app_assoc. cbn [app].
      specialize (IH ((pair_binding (k', it)) :: m0)). destruct (last_pair k ps) as [it'|]; [exact IH|].
      rewrite IH. cbn [find pair_binding fst snd]. destruct (bytes_eqb k' k); [|reflexivity]. eexists. reflexivity. }
    unfold map_get. specialize (Hf []). rewrite app_nil_r in Hf. destruct (last_pair k ps) as [it|].
    - destruct Hf as (k' & ->). reflexivity.
    - rewrite Hf. reflexivity.
  Qed.

  Lemma pairs_get data b e l lb le ps rest k : document data b e (Arr l lb le) -> jsmn_answers jsmn data b e (Arr l lb le) -> (N.of_nat (length data) < 2^28)%N -> paired inner data l ps rest -> (length rest <= 1)%nat ->
    object_get jsmn inner data b e k = Ret (match last_pair k ps with Some it => range_text it | None => repeat x30 16 end).
  Proof.
    intros H Hj Hl HP Hr. unfold object_get. rewrite (proj1 (pairs_tokens _ _ _ _ _ _ _ _ H Hj Hl HP) Hr). cbn [bind]. rewrite map_get_pair. destruct (last_pair k ps) as [it|] eqn:E; [|reflexivity].
    apply last_pair_in in E. apply (paired_in _ _ _ _ _ _ HP) in E. pose proof (document_nonneg _ _ _ _ H) as N. unfold len in N. change (2^28)%N with 268435456%N in Hl.
    destruct (child_ok _ _ _ _ it H E ltac:(lia)). now apply encode_head.
  Qed.
  Lemma pairs_confused data b e l lb le ps it v rest k : document data b e (Arr l lb le) -> jsmn_answers jsmn data b e (Arr l lb le) -> (N.of_nat (length data) < 2^28)%N -> paired inner data l ps (it :: v :: rest) -> confused inner data it ->
    object_get jsmn inner data b e k = UB TypeConfusion.
  Proof. intros H Hj Hl HP Hc. unfold object_get. now rewrite (proj2 (pairs_tokens _ _ _ _ _ _ _ _ H Hj Hl HP) _ _ _ eq_refl Hc). Qed.

  (** one of the two is the case *)
  Lemma paired_total data b e l lb le : document data b e (Arr l lb le) -> (N.of_nat (length data) < 2^28)%N ->
    exists ps rest, paired inner data l ps rest /\ ((length rest <= 1)%nat \/ exists it v rest', rest = it :: v :: rest' /\ confused inner data it).
  Proof.
    intros Hd Hl. assert (X : forall l', (forall it, In it l' -> In it l) -> exists ps rest, paired inner data l' ps rest /\ ((length rest <= 1)%nat \/ exists it v rest', rest = it :: v :: rest' /\ confused inner data it)).
    { intros l'. remember (length l') as n eqn:En. revert l' En. induction n as [n IH] using lt_wf_ind. intros l' En Hin.
      destruct l' as [|it [|v l']]; [exists [], []; split; [constructor|left; cbn; lia]|exists [], [it]; split; [constructor|left; cbn; lia]|].
      assert (Hk : (exists k, key_of inner data it k) \/ confused inner data it).
      { destruct it as [x y|k x y|l1 x y|ms x y]; [|left; eexists; constructor| |].
        all: first [match goal with |- context [key_of _ _ ?i] => assert (Hn : ~ is_str i) by (cbn; tauto); destruct (get_raw _ _ _ _ _ _ i Hd Hl (Hin _ (or_introl eq_refl)) Hn) as (_ & Hs & _);
               destruct (parse_ok (inner (around data i)) _ Hs) as [(a & r & v0 & Hg & _)|(Hno & _)];
               [right; split; [exact Hn|]; exists a, r; exact Hg
               |left; exists []; apply K_unread; [exact Hn|]; intros a r Hg; exact (Hno a r Hg)] end]. }
      destruct Hk as [(k & Hk)|Hc].
      - destruct (IH (length l') ltac:(subst n; cbn; lia) l' eq_refl ltac:(intros; apply Hin; right; now right)) as (ps & rest & HP & HR). exists ((k, v) :: ps), rest. split; [now constructor|exact HR].
      - exists [], (it :: v :: l'). split; [constructor|]. right. exists it, v, l'. auto. }
    apply X. auto.
  Qed.

  Lemma scalar_get data b e root k : jsmn_answers jsmn data b e root -> (exists x y, root = Prim x y) \/ (exists s x y, root = Str s x y) ->
    object_get jsmn inner data b e k = Ret (repeat x30 16).
  Proof. intros Hj H. unfold object_get, object_tokens. rewrite (internal_ok _ _ _ _ _ Hj). destruct H as [(x & y & ->)|(s & x & y & ->)]; reflexivity. Qed.

  Lemma parts_tokens data b e root : document data b e root -> jsmn_answers jsmn data b e root -> array_tokens jsmn data b e = Ret (map head_token (parts root)).
  Proof.
    intros (pre & s & w & post & -> & -> & -> & H & Hw) Hj. unfold array_tokens. rewrite (internal_ok _ _ _ _ _ Hj). cbn [bind].
    destruct (parts_scan _ _ _ _ H) as (t & ts & -> & ->). reflexivity.
  Qed.
  Lemma parts_array data b e root : document data b e root -> jsmn_answers jsmn data b e root -> e <= 2147483647 -> parse_array_fn jsmn data b e = Ret (concat (map range_text (parts root))).
  Proof.
    intros H Hj He. unfold parse_array_fn. rewrite (parts_tokens _ _ _ _ H Hj). cbn [bind]. rewrite map_map.
    rewrite (sequence_ok _ range_text); [reflexivity|]. intros it Hi. destruct (child_ok _ _ _ _ it H (parts_child _ _ Hi) He). now apply encode_head.
  Qed.
  Lemma parts_get data b e root i : document data b e root -> jsmn_answers jsmn data b e root -> e <= 2147483647 ->
    array_get jsmn data b e i = (if i <? 0 then UB OutOfBounds else match nth_error (parts root) (Z.to_nat i) with Some it => Ret (range_text it) | None => UB OutOfBounds end).
  Proof.
    intros H Hj He. unfold array_get. rewrite (parts_tokens _ _ _ _ H Hj). cbn [bind]. destruct (i <? 0); [reflexivity|]. rewrite nth_error_map.
    destruct (nth_error (parts root) (Z.to_nat i)) as [it|] eqn:E; [|reflexivity]. cbn [option_map]. destruct (child_ok _ _ _ _ it H (parts_child _ _ (nth_error_In _ _ E)) He). now apply encode_head.
  Qed.
End Pairs.

(** ------------------------------------------------------------------ through the C interface *)

Section Calls.
  Variable jsmn : bytes -> Z -> Z -> outcome (Z * list token).
  Variable to_int : Z -> Z.
  Variable inner : bytes -> layout.
  Hypothesis to_int_ok : forall z, is_int z -> to_int z = z.

  Lemma doc_ints data b e root : document data b e root -> (N.of_nat (length data) < 2^28)%N -> is_int b /\ is_int e /\ e <= 2147483647.
  Proof.
    intros Hd Hl. change (2^28)%N with 268435456%N in Hl. destruct Hd as (pre & s & w & post & -> & -> & -> & _). pose proof (len_pos pre). pose proof (len_pos s). rewrite !app_length in Hl. unfold is_int, len in *. lia.
  Qed.

  Lemma kind_parse_array lay buf data b e root more r :
    (N.of_nat (length (cstr buf)) < 2^28)%N -> gval (readable lay) (cstr buf) (AArr (AStr n_parseArray :: AStr data :: AInt b :: AInt e :: more)) r -> Forall short_keys more ->
    document data b e root -> jsmn_answers jsmn data b e root ->
    c_run (json_op jsmn to_int inner) lay buf = Ret (Some (strings_text [concat (map range_text (parts root))])).
  Proof.
    intros Hs Hg Hk Hd Hj. pose proof (data_len _ _ _ _ _ _ Hg) as Hl. destruct (doc_ints _ _ _ _ Hd ltac:(lia)) as (Ib & Ie & He).
    apply (json_answer jsmn to_int inner lay buf _ r _ Hs Hg).
    - repeat constructor; auto.
    - intros vs Hf. rewrite (request_parse_array jsmn to_int inner to_int_ok _ _ _ _ _ Hf) by auto. rewrite (parts_array jsmn _ _ _ _ Hd Hj) by auto. reflexivity.
  Qed.

  Lemma kind_array_get lay buf data b e root i more r :
    (N.of_nat (length (cstr buf)) < 2^28)%N -> gval (readable lay) (cstr buf) (AArr (AStr n_arrayGet :: AStr data :: AInt b :: AInt e :: AInt i :: more)) r -> Forall short_keys more ->
    document data b e root -> jsmn_answers jsmn data b e root -> is_int i ->
    c_run (json_op jsmn to_int inner) lay buf =
      (if i <? 0 then UB OutOfBounds else match nth_error (parts root) (Z.to_nat i) with Some it => Ret (Some (strings_text [range_text it])) | None => UB OutOfBounds end).
  Proof.
    intros Hs Hg Hk Hd Hj Hi. pose proof (data_len _ _ _ _ _ _ Hg) as Hl. destruct (doc_ints _ _ _ _ Hd ltac:(lia)) as (Ib & Ie & He).
    assert (Hk2 : Forall short_keys (AStr n_arrayGet :: AStr data :: AInt b :: AInt e :: AInt i :: more)) by (repeat constructor; auto).
    pose proof (parts_get jsmn _ _ _ _ i Hd Hj He) as G. destruct (i <? 0).
    - apply (json_other jsmn to_int inner lay buf _ r Hs Hg Hk2); [discriminate|]. intros vs Hf. rewrite (request_array_get jsmn to_int inner to_int_ok _ _ _ _ _ _ Hf) by auto. now rewrite G.
    - destruct (nth_error (parts root) (Z.to_nat i)) as [it|].
      + apply (json_answer jsmn to_int inner lay buf _ r _ Hs Hg Hk2). intros vs Hf. rewrite (request_array_get jsmn to_int inner to_int_ok _ _ _ _ _ _ Hf) by auto. now rewrite G.
      + apply (json_other jsmn to_int inner lay buf _ r Hs Hg Hk2); [discriminate|]. intros vs Hf. rewrite (request_array_get jsmn to_int inner to_int_ok _ _ _ _ _ _ Hf) by auto. now rewrite G.
  Qed.

  Lemma kind_object_get lay buf data b e l lb le ps rest k more r :
    (N.of_nat (length (cstr buf)) < 2^28)%N -> gval (readable lay) (cstr buf) (AArr (AStr n_objectGet :: AStr data :: AInt b :: AInt e :: AStr k :: more)) r -> Forall short_keys more ->
    document data b e (Arr l lb le) -> jsmn_answers jsmn data b e (Arr l lb le) -> paired inner data l ps rest -> (length rest <= 1)%nat ->
    c_run (json_op jsmn to_int inner) lay buf = Ret (Some (strings_text [match last_pair k ps with Some it => range_text it | None => repeat x30 16 end])).
  Proof.
    intros Hs Hg Hk Hd Hj HP HR. pose proof (data_len _ _ _ _ _ _ Hg) as Hl. destruct (doc_ints _ _ _ _ Hd ltac:(lia)) as (Ib & Ie & He).
    apply (json_answer jsmn to_int inner lay buf _ r _ Hs Hg).
    - repeat constructor; auto.
    - intros vs Hf. rewrite (request_object_get jsmn to_int inner to_int_ok _ _ _ _ _ _ Hf) by auto. rewrite (pairs_get jsmn inner _ _ _ _ _ _ ps rest k Hd Hj) by (auto; lia). reflexivity.
  Qed.
  Lemma kind_object_ub lay buf data b e l lb le ps it v rest k more r :
    (N.of_nat (length (cstr buf)) < 2^28)%N -> gval (readable lay) (cstr buf) (AArr (AStr n_objectGet :: AStr data :: AInt b :: AInt e :: AStr k :: more)) r -> Forall short_keys more ->
    document data b e (Arr l lb le) -> jsmn_answers jsmn data b e (Arr l lb le) -> paired inner data l ps (it :: v :: rest) -> confused inner data it ->
    c_run (json_op jsmn to_int inner) lay buf = UB TypeConfusion.
  Proof.
    intros Hs Hg Hk Hd Hj HP HR. pose proof (data_len _ _ _ _ _ _ Hg) as Hl. destruct (doc_ints _ _ _ _ Hd ltac:(lia)) as (Ib & Ie & He).
    apply (json_other jsmn to_int inner lay buf _ r Hs Hg); [repeat constructor; auto|discriminate|].
    intros vs Hf. rewrite (request_object_get jsmn to_int inner to_int_ok _ _ _ _ _ _ Hf) by auto. rewrite (pairs_confused jsmn inner _ _ _ _ _ _ ps it v rest k Hd Hj) by (auto; lia). reflexivity.
  Qed.

  Lemma kind_scalar_get lay buf data b e root k more r :
    (N.of_nat (length (cstr buf)) < 2^28)%N -> gval (readable lay) (cstr buf) (AArr (AStr n_objectGet :: AStr data :: AInt b :: AInt e :: AStr k :: more)) r -> Forall short_keys more ->
    document data b e root -> jsmn_answers jsmn data b e root -> (exists x y, root = Prim x y) \/ (exists s x y, root = Str s x y) ->
    c_run (json_op jsmn to_int inner) lay buf = Ret (Some (strings_text [repeat x30 16])).
  Proof.
    intros Hs Hg Hk Hd Hj HP. pose proof (data_len _ _ _ _ _ _ Hg) as Hl. destruct (doc_ints _ _ _ _ Hd ltac:(lia)) as (Ib & Ie & He).
    apply (json_answer jsmn to_int inner lay buf _ r _ Hs Hg).
    - repeat constructor; auto.
    - intros vs Hf. rewrite (request_object_get jsmn to_int inner to_int_ok _ _ _ _ _ _ Hf) by auto. rewrite (scalar_get jsmn inner _ _ _ _ k Hj HP). reflexivity.
  Qed.

  Lemma call_kind_array lay buf data b e root more r :
    (N.of_nat (length (cstr buf)) < 2^28)%N -> gval (readable lay) (cstr buf) (AArr (AStr n_parseArray :: AStr data :: AInt b :: AInt e :: more)) r -> Forall short_keys more ->
    document data b e root -> jsmn_answers jsmn data b e root ->
    exists out h, c_run (json_op jsmn to_int inner) lay buf = Ret (Some out) /\ one_string_text out h /\ length h = (16 * length (parts root))%nat /\
      forall i it, nth_error (parts root) i = Some it -> spells_range (firstn 16 (skipn (16 * i) h)) (begin_of it) (end_of it).
  Proof.
    intros Hs Hg Hk Hd Hj. pose proof (data_len _ _ _ _ _ _ Hg) as Hl. destruct (doc_ints _ _ _ _ Hd ltac:(lia)) as (_ & _ & He).
    eexists _, _. split; [now apply (kind_parse_array lay buf data b e root more r)|]. split; [apply one_string|].
    assert (Hf : Forall (fun h : bytes => length h = 16%nat) (map range_text (parts root))). { apply Forall_forall. intros h Hh. apply in_map_iff in Hh as (it & <- & _). reflexivity. }
    split. { rewrite (concat_len 16) by auto. now rewrite map_length. }
    intros i it Hi. rewrite (concat_16 (map range_text (parts root)) Hf i (range_text it)) by (rewrite nth_error_map, Hi; reflexivity).
    apply (range_spells data b e root); auto. apply parts_child. eapply nth_error_In; eauto.
  Qed.

  Lemma call_kind_get lay buf data b e root i more r :
    (N.of_nat (length (cstr buf)) < 2^28)%N -> gval (readable lay) (cstr buf) (AArr (AStr n_arrayGet :: AStr data :: AInt b :: AInt e :: AInt i :: more)) r -> Forall short_keys more ->
    document data b e root -> jsmn_answers jsmn data b e root -> is_int i ->
    (forall n it, i = Z.of_nat n -> nth_error (parts root) n = Some it ->
       exists out h, c_run (json_op jsmn to_int inner) lay buf = Ret (Some out) /\ one_string_text out h /\ spells_range h (begin_of it) (end_of it)) /\
    (i < 0 \/ Z.of_nat (length (parts root)) <= i -> c_run (json_op jsmn to_int inner) lay buf = UB OutOfBounds).
  Proof.
    intros Hs Hg Hk Hd Hj Hi. pose proof (data_len _ _ _ _ _ _ Hg) as Hl. destruct (doc_ints _ _ _ _ Hd ltac:(lia)) as (_ & _ & He).
    rewrite (kind_array_get lay buf data b e root i more r Hs Hg Hk Hd Hj Hi). split.
    - intros n it -> E. destruct (Z.ltb_spec (Z.of_nat n) 0); [lia|]. rewrite Nat2Z.id, E. eexists _, _. split; [reflexivity|]. split; [apply one_string|].
      apply (range_spells data b e root); auto. apply parts_child. eapply nth_error_In; eauto.
    - intros Ho. destruct (Z.ltb_spec i 0); [reflexivity|]. destruct (nth_error (parts root) (Z.to_nat i)) eqn:E; [|reflexivity]. assert (X : (Z.to_nat i < length (parts root))%nat) by (apply nth_error_Some; congruence). lia.
  Qed.

  Lemma call_kind_pairs lay buf data b e l lb le ps rest k more r :
    (N.of_nat (length (cstr buf)) < 2^28)%N -> gval (readable lay) (cstr buf) (AArr (AStr n_objectGet :: AStr data :: AInt b :: AInt e :: AStr k :: more)) r -> Forall short_keys more ->
    document data b e (Arr l lb le) -> jsmn_answers jsmn data b e (Arr l lb le) -> paired inner data l ps rest -> (length rest <= 1)%nat ->
    exists out h, c_run (json_op jsmn to_int inner) lay buf = Ret (Some out) /\ one_string_text out h /\
      match last_pair k ps with Some it => spells_range h (begin_of it) (end_of it) | None => h = repeat x30 16 end.
  Proof.
    intros Hs Hg Hk Hd Hj HP HR. pose proof (data_len _ _ _ _ _ _ Hg) as Hl. destruct (doc_ints _ _ _ _ Hd ltac:(lia)) as (_ & _ & He).
    eexists _, _. split; [now apply (kind_object_get lay buf data b e l lb le ps rest k more r)|]. split; [apply one_string|]. destruct (last_pair k ps) as [it|] eqn:E; [|reflexivity].
    apply (range_spells data b e (Arr l lb le)); auto. apply last_pair_in in E. now apply (paired_in jsmn inner data l ps rest k it).
  Qed.

  Lemma call_kind_scalar lay buf data b e root k more r :
    (N.of_nat (length (cstr buf)) < 2^28)%N -> gval (readable lay) (cstr buf) (AArr (AStr n_objectGet :: AStr data :: AInt b :: AInt e :: AStr k :: more)) r -> Forall short_keys more ->
    document data b e root -> jsmn_answers jsmn data b e root -> (exists x y, root = Prim x y) \/ (exists s x y, root = Str s x y) ->
    exists out, c_run (json_op jsmn to_int inner) lay buf = Ret (Some out) /\ one_string_text out (repeat x30 16).
  Proof. intros Hs Hg Hk Hd Hj HP. eexists. split; [eapply kind_scalar_get; eauto|apply one_string]. Qed.
End Calls.

Lemma paired_or_confused inner data b e l lb le : document data b e (Arr l lb le) -> (N.of_nat (length data) < 2^28)%N ->
  exists ps rest, paired inner data l ps rest /\ ((length rest <= 1)%nat \/ exists it v rest', rest = it :: v :: rest' /\ confused inner data it).
Proof. exact (paired_total (fun _ _ _ => UB OutOfBounds) inner data b e l lb le). Qed.

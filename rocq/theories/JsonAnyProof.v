(** Proofs for C110: the JSON example and texts that are no documents. *)
From Verif Require Import Base JsonSpec JsonModel JsonDenotes JsonProof JsonProof2 JsonProof3 EniModel EniProof CryptoModel CryptoProof CliModel JsonExSpec JsonExModel JsonExProof JsonExProof2 JsonExProof3 JsonAnySpec.
From Coq Require Import List NArith ZArith Bool Lia Arith.
From Coq.Init Require Import Byte.
From Coq.Strings Require Import Byte.
Import ListNotations.
Local Open Scope Z_scope.

Ltac texts := unfold before, holds, solid, text_range in *;
  repeat match goal with t : token |- _ => let T := fresh "ty" in let s := fresh "st" in let e := fresh "en" in destruct t as [T s e]; destruct T end;
  cbn [t_type t_start t_end fst snd] in *; intuition (try discriminate; try lia).

Lemma solid_span t : solid t -> t_start t <= t_end t /\ fst (text_range t) <= t_start t /\ t_end t <= snd (text_range t).
Proof. intros H. texts. Qed.
Lemma before_start t t' : solid t -> solid t' -> before t t' -> t_end t <= t_start t'.
Proof. intros H1 H2 H3. texts. Qed.
Lemma holds_start t t' : solid t' -> holds t t' -> t_start t' < t_end t.
Proof. intros H1 H2. texts. Qed.
Lemma rel_start t t' : solid t -> solid t' -> before t t' \/ holds t t' -> t_start t < t_start t'.
Proof. intros H1 H2 H3. texts. Qed.
Lemma rel_holds t t' : solid t -> solid t' -> before t t' \/ holds t t' -> ~ holds t' t.
Proof. intros H1 H2 H3 H4. texts. Qed.
Lemma holds_trans t t' t'' : holds t t' -> holds t' t'' -> holds t t''.
Proof. unfold holds. intuition lia. Qed.
Lemma holds_irrefl t : ~ holds t t.
Proof. unfold holds. intuition lia. Qed.

Notation rel := (fun t t' => before t t' \/ holds t t').

Lemma scan_spec ts : ForallOrdPairs rel ts -> Forall solid ts -> forall after bnd,
  ForallOrdPairs before (array_scan ts after bnd) /\
  forall t, In t (array_scan ts after bnd) <-> In t ts /\ after <= t_start t <= bnd /\ forall t', In t' ts -> after <= t_start t' -> ~ holds t' t.
Proof.
  induction 1 as [|t ts Ht HP IH]; intros HS after bnd; cbn [array_scan].
  - split; [constructor|]. intros t. cbn. tauto.
  - inversion HS as [|? ? St Ss]; subst. rewrite Forall_forall in Ht, Ss. specialize (IH (Forall_inv_tail HS)).
    destruct (Z.ltb_spec (t_start t) after) as [L|L]; [|destruct (Z.ltb_spec bnd (t_start t)) as [L'|L']].
    + destruct (IH after bnd) as [I1 I2]. split; [exact I1|]. intros x. rewrite I2. cbn [In]. split.
      * intros (H1 & H2 & H3). split; [now right|]. split; [exact H2|]. intros t' [<-|Hi] Ha; [lia|auto].
      * intros ([<-|H1] & H2 & H3); [lia|]. split; [exact H1|]. split; [exact H2|]. intros t' Hi. apply H3. now right.
    + split; [constructor|]. intros x. cbn [In]. split; [tauto|]. intros ([<-|H1] & H2 & H3); [lia|]. pose proof (rel_start _ _ St (Ss _ H1) (Ht _ H1)). lia.
    + destruct (IH (t_end t) bnd) as [I1 I2]. pose proof (solid_span _ St) as (Sp & _). split.
      * constructor; [|exact I1]. apply Forall_forall. intros x Hx. apply I2 in Hx as (H1 & H2 & _). destruct (Ht _ H1) as [B|B]; [exact B|]. pose proof (holds_start _ _ (Ss _ H1) B). lia.
      * intros x. cbn [In]. rewrite I2. split.
        -- intros [<-|(H1 & H2 & H3)].
           ++ split; [now left|]. split; [lia|]. intros t' [<-|Hi] _; [apply holds_irrefl|]. apply rel_holds; auto.
           ++ split; [now right|]. split; [lia|]. intros t' [<-|Hi] Ha Hh.
              ** pose proof (holds_start _ _ (Ss _ H1) Hh). lia.
              ** destruct (Z.le_gt_cases (t_end t) (t_start t')) as [G|G]; [exact (H3 t' Hi G Hh)|]. destruct (Ht _ Hi) as [B|B]; [pose proof (before_start _ _ St (Ss _ Hi) B); lia|].
                 pose proof (holds_start _ _ (Ss _ H1) (holds_trans _ _ _ B Hh)). lia.
        -- intros ([<-|H1] & H2 & H3); [now left|]. right. split; [exact H1|]. assert (B : before t x) by (destruct (Ht _ H1) as [B|B]; [exact B|]; destruct (H3 t (or_introl eq_refl) ltac:(lia) B)).
           pose proof (before_start _ _ St (Ss _ H1) B). split; [lia|]. intros t' Hi G. apply H3; [now right|]. lia.
Qed.

Lemma tidy_inv b e t0 ts : tidy b e (t0 :: ts) -> solid t0 /\ Forall (rel t0) ts /\ Forall solid ts /\ ForallOrdPairs rel ts /\
  Forall (fun t => t_start t0 < t_start t) ts /\ Forall (fun t => b <= fst (text_range t) /\ snd (text_range t) <= e) (t0 :: ts).
Proof.
  intros [H1 H2]. inversion H1 as [|? ? [S0 B0] Hs]; subst. inversion H2 as [|? ? R HP]; subst.
  assert (Ss : Forall solid ts) by (eapply Forall_impl; [|exact Hs]; cbn; tauto). split; [exact S0|]. split; [exact R|]. split; [exact Ss|]. split; [exact HP|]. split.
  - rewrite Forall_forall in *. intros t Hi. exact (rel_start _ _ S0 (Ss _ Hi) (R _ Hi)).
  - eapply Forall_impl; [|exact H1]. cbn. tauto.
Qed.

Lemma tops_scan b e t0 ts : tidy b e (t0 :: ts) -> tops t0 ts (array_scan ts (t_start t0) (t_end t0)).
Proof.
  intros H. apply tidy_inv in H as (S0 & _ & Ss & HP & HL & _). destruct (scan_spec ts HP Ss (t_start t0) (t_end t0)) as [I1 I2]. split; [exact I1|].
  rewrite Forall_forall in HL. intros t. rewrite I2. split.
  - intros (H1 & H2 & H3). split; [exact H1|]. split; [lia|]. intros t' Hi. apply H3; auto. specialize (HL _ Hi). lia.
  - intros (H1 & H2 & H3). split; [exact H1|]. split; [specialize (HL _ H1); lia|]. intros t' Hi _. auto.
Qed.

(** the list is determined by its elements *)
Lemma ordered_eq l l' : ForallOrdPairs before l -> ForallOrdPairs before l' -> Forall solid l -> Forall solid l' -> (forall t, In t l <-> In t l') -> l = l'.
Proof.
  assert (As : forall x y, solid x -> solid y -> before x y -> ~ before y x) by (unfold before, solid; intros; lia).
  assert (Ir : forall x, solid x -> ~ before x x) by (unfold before, solid; intros; lia).
  intros H. revert l'. induction H as [|x l Hx HP IH]; intros l' H' S S' E.
  - destruct l' as [|y l']; [reflexivity|]. destruct (proj2 (E y) (or_introl eq_refl)).
  - destruct H' as [|y l' Hy HP']; [destruct (proj1 (E x) (or_introl eq_refl))|]. inversion S as [|? ? Sx Sl]; subst. inversion S' as [|? ? Sy Sl']; subst. rewrite Forall_forall in Hx, Hy.
    assert (Exy : x = y).
    { destruct (proj1 (E x) (or_introl eq_refl)) as [->|Hi]; [reflexivity|]. destruct (proj2 (E y) (or_introl eq_refl)) as [->|Hj]; [reflexivity|]. destruct (As x y Sx Sy (Hx _ Hj) (Hy _ Hi)). }
    subst y. f_equal. apply IH; auto. intros t. split; intros Hi.
    + destruct (proj1 (E t) (or_intror Hi)) as [<-|X]; [|exact X]. destruct (Ir x Sx (Hx _ Hi)).
    + destruct (proj2 (E t) (or_intror Hi)) as [<-|X]; [|exact X]. destruct (Ir x Sx (Hy _ Hi)).
Qed.
Lemma tops_unique b e t0 ts cs : tidy b e (t0 :: ts) -> tops t0 ts cs -> array_scan ts (t_start t0) (t_end t0) = cs.
Proof.
  intros H [H1 H2]. destruct (tops_scan _ _ _ _ H) as [I1 I2]. apply tidy_inv in H as (_ & _ & Ss & _). rewrite Forall_forall in Ss. apply ordered_eq; auto.
  - apply Forall_forall. intros t Hi. apply Ss. now apply I2 in Hi.
  - apply Forall_forall. intros t Hi. apply Ss. now apply H2 in Hi.
  - intros t. now rewrite I2, H2.
Qed.

(** ------------------------------------------------------------------ the operations *)

Definition range_of (t : token) : bytes := hex8 (fst (text_range t)) ++ hex8 (snd (text_range t)).
Lemma tops_in b e t0 ts cs t : tidy b e (t0 :: ts) -> tops t0 ts cs -> In t cs ->
  solid t /\ b <= fst (text_range t) < snd (text_range t) /\ snd (text_range t) <= e /\ t_start t0 < t_start t.
Proof.
  intros H [_ H2] Hi. apply H2 in Hi as (Hi & _). apply tidy_inv in H as (_ & _ & Ss & _ & HL & HR). inversion HR; subst. rewrite Forall_forall in *. pose proof (Ss _ Hi) as St. split; [exact St|]. destruct St as [St _]. specialize (HL _ Hi). match goal with HH : forall x, In x ts -> b <= _ /\ _ |- _ => pose proof (HH _ Hi) end. lia.
Qed.
Lemma any_encode b e t0 ts cs t : 0 <= b -> e <= 2147483647 -> tidy b e (t0 :: ts) -> tops t0 ts cs -> In t cs -> encode_token t = Ret (range_of t).
Proof. intros Hb He H1 H2 Hi. destruct (tops_in _ _ _ _ _ _ H1 H2 Hi) as (_ & B1 & B2 & _). apply encode_range; unfold is_int; lia. Qed.


Lemma by_two_rest inner data cs ps rest t : by_two inner data cs ps rest -> In t rest -> In t cs.
Proof. induction 1; cbn; auto. Qed.
Lemma by_two_value inner data cs ps rest k t : by_two inner data cs ps rest -> In (k, t) ps -> In t cs.
Proof. induction 1 as [l|t' k' v l ps rest HK HB IH]; cbn; [tauto|]. intros [E|Hi]; [injection E as -> ->; auto|auto]. Qed.

Lemma find_last k ps : map_get k (rev ps) = match last_of k ps with Some t => t | None => zero_token end.
Proof.
  unfold map_get. assert (G : forall m, find (fun p => bytes_eqb (fst p) k) (rev ps ++ m) = match last_of k ps with Some t => Some (k, t) | None => find (fun p => bytes_eqb (fst p) k) m end).
  { induction ps as [|[k' t] ps IH]; intros m; cbn [rev last_of]; [reflexivity|]. rewrite <- app_assoc, IH. destruct (last_of k ps); [reflexivity|]. cbn [app find fst]. destruct (bytes_eqb_spec k' k) as [->|]; reflexivity. }
  specialize (G []). rewrite app_nil_r in G. rewrite G. destruct (last_of k ps); reflexivity.
Qed.
Lemma last_of_in k ps t : last_of k ps = Some t -> In (k, t) ps.
Proof.
  induction ps as [|[k' v] ps IH]; cbn [last_of]; [discriminate|]. destruct (last_of k ps) as [t'|].
  - intros E. right. auto.
  - destruct (bytes_eqb_spec k' k) as [->|]; [|discriminate]. intros E. injection E as ->. now left.
Qed.

Section Any.
  Variable jsmn : bytes -> Z -> Z -> outcome (Z * list token).
  Variable inner : bytes -> layout.


  Lemma internal_reports data b e ts : jsmn_reports jsmn data b e ts -> internal_parse jsmn data b e = Ret ts.
  Proof.
    unfold jsmn_reports, internal_parse. intros ->. cbn [bind]. destruct (Z.ltb_spec (Z.of_nat (length ts)) 0); [lia|]. rewrite Nat2Z.id. f_equal. rewrite firstn_app, firstn_all, Nat.sub_diag. cbn [firstn]. apply app_nil_r.
  Qed.
  Lemma any_tokens data b e t0 ts cs : jsmn_reports jsmn data b e (t0 :: ts) -> tidy b e (t0 :: ts) -> tops t0 ts cs -> array_tokens jsmn data b e = Ret cs.
  Proof. intros H1 H2 H3. unfold array_tokens. rewrite (internal_reports _ _ _ _ H1). cbn [bind]. now rewrite (tops_unique _ _ _ _ _ H2 H3). Qed.
  Lemma any_array data b e t0 ts cs : 0 <= b -> e <= 2147483647 -> jsmn_reports jsmn data b e (t0 :: ts) -> tidy b e (t0 :: ts) -> tops t0 ts cs ->
    parse_array_fn jsmn data b e = Ret (concat (map range_of cs)).
  Proof.
    intros Hb He H1 H2 H3. unfold parse_array_fn. rewrite (any_tokens _ _ _ _ _ _ H1 H2 H3). cbn [bind]. rewrite (sequence_ok encode_token range_of); [reflexivity|].
    intros t Hi. eapply any_encode; eauto.
  Qed.
  Lemma any_get data b e t0 ts cs i : 0 <= b -> e <= 2147483647 -> jsmn_reports jsmn data b e (t0 :: ts) -> tidy b e (t0 :: ts) -> tops t0 ts cs ->
    array_get jsmn data b e i = if i <? 0 then UB OutOfBounds else match nth_error cs (Z.to_nat i) with Some t => Ret (range_of t) | None => UB OutOfBounds end.
  Proof.
    intros Hb He H1 H2 H3. unfold array_get. rewrite (any_tokens _ _ _ _ _ _ H1 H2 H3). cbn [bind]. destruct (i <? 0); [reflexivity|]. destruct (nth_error cs (Z.to_nat i)) as [t|] eqn:E; [|reflexivity].
    apply nth_error_In in E. eapply any_encode; eauto.
  Qed.

  (** objectTokens pairs the tokens arrayTokens finds *)
  Fixpoint pair_up (data : bytes) (key : option token) (cs : list token) (m : list (bytes * token)) : outcome (list (bytes * token)) :=
    match cs with
    | [] => Ret m
    | t :: cs' =>
        match key with
        | None => pair_up data (Some t) cs' m
        | Some kt => k <- get_key inner data kt ;; pair_up data None cs' ((k, t) :: m)
        end
    end.
  Lemma object_pairs data ts : forall after bnd key m, object_scan inner data ts after bnd key m = pair_up data key (array_scan ts after bnd) m.
  Proof.
    induction ts as [|t ts IH]; intros after bnd key m; cbn [object_scan array_scan]; [reflexivity|]. destruct (t_start t <? after); [apply IH|]. destruct (bnd <? t_start t); [reflexivity|].
    cbn [pair_up]. destruct key as [kt|]; [|apply IH]. destruct (get_key inner data kt); cbn [bind]; auto.
  Qed.

  Lemma any_key data b e t0 ts cs t : 0 <= b -> e <= Z.of_nat (length data) -> (N.of_nat (length data) + 1 < 2^28)%N -> tidy b e (t0 :: ts) -> tops t0 ts cs -> In t cs ->
    get_key inner data t = parse_string_fn inner (beside data t) /\ (N.of_nat (length (beside data t)) < 2^28)%N.
  Proof.
    intros Hb He Hl H1 H2 Hi. destruct (tops_in _ _ _ _ _ _ H1 H2 Hi) as (St & B1 & B2 & B3). pose proof (solid_span _ St) as (S1 & S2 & S3). apply tidy_inv in H1 as (S0 & _ & _ & _ & _ & HR). inversion HR as [|? ? [R0 _] _]; subst.
    pose proof (solid_span _ S0) as (_ & S4 & _). change (2^28)%N with 268435456%N in *. split.
    - unfold get_key. rewrite !int_add_ok by lia. cbn [bind]. replace (t_start t + -1) with (t_start t - 1) by lia.
      destruct (Z.leb_spec 0 (t_start t - 1)); [|lia]. destruct (Z.leb_spec (t_start t - 1) (t_end t + 1)); [|lia]. destruct (Z.leb_spec (t_end t + 1) (Z.of_nat (length data) + 1)); [|lia]. reflexivity.
    - unfold beside. rewrite firstn_length, skipn_length, app_length. cbn [length].
      lia.
  Qed.
  Lemma key_text_ok data b e t0 ts cs t k : 0 <= b -> e <= Z.of_nat (length data) -> (N.of_nat (length data) + 1 < 2^28)%N -> tidy b e (t0 :: ts) -> tops t0 ts cs -> In t cs -> key_text inner data t k ->
    get_key inner data t = Ret k.
  Proof.
    intros Hb He Hl H1 H2 Hi HK. destruct (any_key _ _ _ _ _ _ _ Hb He Hl H1 H2 Hi) as (-> & Hs). unfold parse_string_fn.
    destruct (parse_ok (inner (beside data t)) _ Hs) as [(a & r & v & Hg & Hv & _ & ->)|(Hno & ->)]; cbn [bind]; destruct HK as [k r' Hg'|Hu].
    - destruct (gval_det _ _ _ _ _ _ Hg Hg') as [-> _]. cbn [build] in Hv. now injection Hv as <-.
    - now destruct (Hu a r).
    - now destruct (Hno _ _ Hg').
    - reflexivity.
  Qed.
  Lemma no_key_ub data b e t0 ts cs t : 0 <= b -> e <= Z.of_nat (length data) -> (N.of_nat (length data) + 1 < 2^28)%N -> tidy b e (t0 :: ts) -> tops t0 ts cs -> In t cs -> no_key inner data t ->
    get_key inner data t = UB TypeConfusion.
  Proof.
    intros Hb He Hl H1 H2 Hi (a & r & Hg & Hn). destruct (any_key _ _ _ _ _ _ _ Hb He Hl H1 H2 Hi) as (-> & Hs). unfold parse_string_fn.
    destruct (parse_ok (inner (beside data t)) _ Hs) as [(a' & r' & v & Hg' & Hv & _ & ->)|(Hno & _)]; [|now destruct (Hno _ _ Hg)]. destruct (gval_det _ _ _ _ _ _ Hg' Hg) as [-> _]. cbn [bind].
    destruct a; cbn [build] in Hv; try (injection Hv as <-; reflexivity).
    - now destruct (Hn s).
    - apply bind_ret in Hv as (x & _ & E). injection E as <-. reflexivity.
    - apply bind_ret in Hv as (x & _ & E). apply bind_ret in E as (y & _ & E). injection E as <-. reflexivity.
  Qed.
  Lemma key_cases data t : (N.of_nat (length (beside data t)) < 2^28)%N -> (exists k, key_text inner data t k) \/ no_key inner data t.
  Proof.
    intros Hs. destruct (parse_ok (inner (beside data t)) _ Hs) as [(a & r & v & Hg & _)|(Hno & _)].
    - destruct a as [z|bo|s|l|ms]; [right|right|left; exists s; econstructor; exact Hg|right|right]; exists ltac:(match type of Hg with gval _ _ ?x _ => exact x end), r; split; try exact Hg; discriminate.
    - left. exists []. apply KT_unread. exact Hno.
  Qed.

  Lemma pairs_up data cs ps rest : by_two inner data cs ps rest -> (forall t k, In t cs -> key_text inner data t k -> get_key inner data t = Ret k) -> forall m,
    ((length rest <= 1)%nat -> pair_up data None cs m = Ret (rev ps ++ m)) /\
    (forall t v rest', rest = t :: v :: rest' -> get_key inner data t = UB TypeConfusion -> pair_up data None cs m = UB TypeConfusion).
  Proof.
    induction 1 as [l|t k v l ps rest HK HB IH]; intros Hg m.
    - split.
      + destruct l as [|t [|t' l]]; cbn [length]; intros H; [reflexivity|reflexivity|lia].
      + intros t v rest' -> E. cbn [pair_up]. now rewrite E.
    - cbn [pair_up]. rewrite (Hg t k (or_introl eq_refl) HK). cbn [bind]. destruct (IH ltac:(intros; apply Hg; [right; now right|assumption]) ((k, v) :: m)) as [I1 I2]. split; [|exact I2].
      intros Hr. rewrite (I1 Hr). cbn [rev]. now rewrite <- app_assoc.
  Qed.
  Lemma any_object data b e t0 ts cs ps rest k : 0 <= b -> e <= Z.of_nat (length data) -> (N.of_nat (length data) + 1 < 2^28)%N -> jsmn_reports jsmn data b e (t0 :: ts) -> tidy b e (t0 :: ts) -> tops t0 ts cs ->
    by_two inner data cs ps rest ->
    ((length rest <= 1)%nat -> object_get jsmn inner data b e k = Ret (match last_of k ps with Some t => range_of t | None => repeat x30 16 end)) /\
    (forall t v rest', rest = t :: v :: rest' -> no_key inner data t -> object_get jsmn inner data b e k = UB TypeConfusion).
  Proof.
    intros Hb He Hl Hj Ht Hc HB. unfold object_get, object_tokens. rewrite (internal_reports _ _ _ _ Hj). cbn [bind]. rewrite object_pairs, (tops_unique _ _ _ _ _ Ht Hc).
    destruct (pairs_up data cs ps rest HB ltac:(intros t k' Hi HK; eapply key_text_ok; eauto) []) as [P1 P2]. split.
    - intros Hr. rewrite (P1 Hr), app_nil_r. cbn [bind]. rewrite find_last. destruct (last_of k ps) as [t|] eqn:E; [|reflexivity].
      apply last_of_in in E. change (2^28)%N with 268435456%N in Hl. apply (any_encode b e t0 ts cs); auto; [lia|]. eapply by_two_value; eauto.
    - intros t v rest' -> Hn. rewrite (P2 t v rest' eq_refl); [reflexivity|]. eapply no_key_ub; eauto. eapply by_two_rest; [exact HB|now left].
  Qed.
  Lemma by_two_total data b e t0 ts cs : 0 <= b -> e <= Z.of_nat (length data) -> (N.of_nat (length data) + 1 < 2^28)%N -> tidy b e (t0 :: ts) -> tops t0 ts cs ->
    exists ps rest, by_two inner data cs ps rest /\ ((length rest <= 1)%nat \/ exists t v rest', rest = t :: v :: rest' /\ no_key inner data t).
  Proof.
    intros Hb He Hl Ht Hc. assert (X : forall l', (forall t, In t l' -> In t cs) -> exists ps rest, by_two inner data l' ps rest /\ ((length rest <= 1)%nat \/ exists t v rest', rest = t :: v :: rest' /\ no_key inner data t)).
    { intros l'. remember (length l') as n eqn:En. revert l' En. induction n as [n IH] using lt_wf_ind. intros l' En Hin.
      destruct l' as [|t [|v l']]; [exists [], []; split; [constructor|left; cbn; lia]|exists [], [t]; split; [constructor|left; cbn; lia]|].
      destruct (key_cases data t (proj2 (any_key _ _ _ _ _ _ _ Hb He Hl Ht Hc (Hin _ (or_introl eq_refl))))) as [(k & Hk)|Hn].
      - destruct (IH (length l') ltac:(subst n; cbn; lia) l' eq_refl ltac:(intros; apply Hin; right; now right)) as (ps & rest & HP & HR). exists ((k, v) :: ps), rest. split; [now constructor|exact HR].
      - exists [], (t :: v :: l'). split; [constructor|]. right. exists t, v, l'. auto. }
    apply X. auto.
  Qed.
End Any.

(** ------------------------------------------------------------------ through the C interface *)

Lemma data_len2 lay buf op data l r : gval (readable lay) (cstr buf) (AArr (AStr op :: AStr data :: l)) r -> (length data + 2 <= length (cstr buf))%nat.
Proof.
  intros H. inversion H as [| | | |? ? ? Hw|? s ? ? Hw He| |]; subst. rewrite app_length. cbn [length].
  inversion He as [|? ? w1 s' ? ? Hv1 Hw1 He1]; subst. clear He. assert (Hs' : (length s' + 1 <= length s)%nat).
  { apply gval_prefix in Hv1 as (p & -> & _). rewrite !app_length. cbn [length]. lia. }
  assert (Hd : (length data <= length s')%nat). { inversion He1 as [? ? ? ? Hv2 Hw2|? ? ? ? ? ? Hv2 Hw2 He2]; subst; now apply gval_str_le in Hv2. }
  lia.
Qed.

Section Calls.
  Variable jsmn : bytes -> Z -> Z -> outcome (Z * list token).
  Variable to_int : Z -> Z.
  Variable inner : bytes -> layout.
  Hypothesis to_int_ok : forall z, is_int z -> to_int z = z.

  Lemma tidy_ints b e t0 ts : 0 <= b -> tidy b e (t0 :: ts) -> b < e.
  Proof. intros Hb H. apply tidy_inv in H as ([S0 _] & _ & _ & _ & _ & HR). inversion HR; subst. lia. Qed.
  Lemma range_of_spells t : 0 <= fst (text_range t) <= 2147483647 -> 0 <= snd (text_range t) <= 2147483647 -> spells_range (range_of t) (fst (text_range t)) (snd (text_range t)).
  Proof. intros H1 H2. apply spells_hex8; lia. Qed.

  Lemma call_any_array lay buf data b e t0 ts cs more r : (N.of_nat (length (cstr buf)) < 2^28)%N ->
    gval (readable lay) (cstr buf) (AArr (AStr n_parseArray :: AStr data :: AInt b :: AInt e :: more)) r -> Forall short_keys more ->
    0 <= b -> e <= len data -> jsmn_reports jsmn data b e (t0 :: ts) -> tidy b e (t0 :: ts) -> tops t0 ts cs ->
    exists out h, c_run (json_op jsmn to_int inner) lay buf = Ret (Some out) /\ one_string_text out h /\ length h = (16 * length cs)%nat /\
      forall i t, nth_error cs i = Some t -> spells_range (firstn 16 (skipn (16 * i) h)) (fst (text_range t)) (snd (text_range t)).
  Proof.
    intros Hs Hg Hk Hb He Hj Ht Hc. pose proof (data_len2 _ _ _ _ _ _ Hg) as Hl. change (2^28)%N with 268435456%N in Hs. unfold len in He. pose proof (tidy_ints _ _ _ _ Hb Ht) as Hbe.
    assert (L16 : Forall (fun h => length h = 16%nat) (map range_of cs)) by (apply Forall_map, Forall_forall; intros t _; reflexivity).
    exists (strings_text [concat (map range_of cs)]), (concat (map range_of cs)). split; [|split; [apply one_string|split]].
    - apply (json_answer jsmn to_int inner lay buf _ r _ Hs Hg); [repeat constructor; auto|].
      intros vs Hf. rewrite (request_parse_array jsmn to_int inner to_int_ok _ _ _ _ _ Hf) by (unfold is_int; lia). rewrite (any_array jsmn inner data b e t0 ts cs) by (auto; lia). reflexivity.
    - rewrite (concat_len 16 _ L16), map_length. lia.
    - intros i t Hi. rewrite (concat_16 _ L16 i (range_of t)) by (now apply map_nth_error). apply nth_error_In in Hi. destruct (tops_in _ _ _ _ _ _ Ht Hc Hi) as (_ & B1 & B2 & _). apply range_of_spells; lia.
  Qed.
  Lemma call_any_get lay buf data b e t0 ts cs i more r : (N.of_nat (length (cstr buf)) < 2^28)%N ->
    gval (readable lay) (cstr buf) (AArr (AStr n_arrayGet :: AStr data :: AInt b :: AInt e :: AInt i :: more)) r -> Forall short_keys more -> is_int i ->
    0 <= b -> e <= len data -> jsmn_reports jsmn data b e (t0 :: ts) -> tidy b e (t0 :: ts) -> tops t0 ts cs ->
    (forall n t, i = Z.of_nat n -> nth_error cs n = Some t ->
       exists out h, c_run (json_op jsmn to_int inner) lay buf = Ret (Some out) /\ one_string_text out h /\ spells_range h (fst (text_range t)) (snd (text_range t))) /\
    (i < 0 \/ Z.of_nat (length cs) <= i -> c_run (json_op jsmn to_int inner) lay buf = UB OutOfBounds).
  Proof.
    intros Hs Hg Hk Hi Hb He Hj Ht Hc. pose proof (data_len2 _ _ _ _ _ _ Hg) as Hl. change (2^28)%N with 268435456%N in Hs. unfold len in He. pose proof (tidy_ints _ _ _ _ Hb Ht) as Hbe. split.
    - intros n t -> Hn. exists (strings_text [range_of t]), (range_of t). split; [|split; [apply one_string|]].
      + apply (json_answer jsmn to_int inner lay buf _ r _ Hs Hg); [repeat constructor; auto|].
        intros vs Hf. rewrite (request_array_get jsmn to_int inner to_int_ok _ _ _ _ _ _ Hf) by (auto; unfold is_int; lia). rewrite (any_get jsmn inner data b e t0 ts cs) by (auto; lia).
        destruct (Z.ltb_spec (Z.of_nat n) 0); [lia|]. rewrite Nat2Z.id, Hn. reflexivity.
      + apply nth_error_In in Hn. destruct (tops_in _ _ _ _ _ _ Ht Hc Hn) as (_ & B1 & B2 & _). apply range_of_spells; lia.
    - intros Ho. apply (json_other jsmn to_int inner lay buf _ r Hs Hg); [repeat constructor; auto|discriminate|].
      intros vs Hf. rewrite (request_array_get jsmn to_int inner to_int_ok _ _ _ _ _ _ Hf) by (auto; unfold is_int; lia). rewrite (any_get jsmn inner data b e t0 ts cs) by (auto; lia).
      destruct (Z.ltb_spec i 0); [reflexivity|]. destruct (nth_error cs (Z.to_nat i)) eqn:E; [|reflexivity]. assert ((Z.to_nat i < length cs)%nat) by (apply nth_error_Some; congruence). lia.
  Qed.
  Lemma call_any_object lay buf data b e t0 ts cs ps rest k more r : (N.of_nat (length (cstr buf)) < 2^28)%N ->
    gval (readable lay) (cstr buf) (AArr (AStr n_objectGet :: AStr data :: AInt b :: AInt e :: AStr k :: more)) r -> Forall short_keys more ->
    0 <= b -> e <= len data -> jsmn_reports jsmn data b e (t0 :: ts) -> tidy b e (t0 :: ts) -> tops t0 ts cs -> by_two inner data cs ps rest ->
    ((length rest <= 1)%nat -> exists out h, c_run (json_op jsmn to_int inner) lay buf = Ret (Some out) /\ one_string_text out h /\
       match last_of k ps with Some t => spells_range h (fst (text_range t)) (snd (text_range t)) | None => h = repeat x30 16 end) /\
    (forall t v rest', rest = t :: v :: rest' -> no_key inner data t -> c_run (json_op jsmn to_int inner) lay buf = UB TypeConfusion).
  Proof.
    intros Hs Hg Hk Hb He Hj Ht Hc HB. pose proof (data_len2 _ _ _ _ _ _ Hg) as Hl. change (2^28)%N with 268435456%N in Hs. unfold len in He. pose proof (tidy_ints _ _ _ _ Hb Ht) as Hbe.
    destruct (any_object jsmn inner data b e t0 ts cs ps rest k Hb He ltac:(change (2^28)%N with 268435456%N; lia) Hj Ht Hc HB) as [A1 A2]. split.
    - intros Hr. eexists (strings_text [_]), _. split; [|split; [apply one_string|]].
      + apply (json_answer jsmn to_int inner lay buf _ r _ Hs Hg); [repeat constructor; auto|].
        intros vs Hf. rewrite (request_object_get jsmn to_int inner to_int_ok _ _ _ _ _ _ Hf) by (auto; unfold is_int; lia). rewrite (A1 Hr). reflexivity.
      + destruct (last_of k ps) as [t|] eqn:E; [|reflexivity]. apply last_of_in in E. apply (by_two_value _ _ _ _ _ _ _ HB) in E. destruct (tops_in _ _ _ _ _ _ Ht Hc E) as (_ & B1 & B2 & _). apply range_of_spells; lia.
    - intros t v rest' E Hn. apply (json_other jsmn to_int inner lay buf _ r Hs Hg); [repeat constructor; auto|discriminate|].
      intros vs Hf. rewrite (request_object_get jsmn to_int inner to_int_ok _ _ _ _ _ _ Hf) by (auto; unfold is_int; lia). now rewrite (A2 t v rest' E Hn).
  Qed.
End Calls.

(** ------------------------------------------------------------------ the tokens of a document are tidy *)

Lemma tidy_mono b e b' e' ts : b' <= b -> e <= e' -> tidy b e ts -> tidy b' e' ts.
Proof. intros H1 H2 [H3 H4]. split; [|exact H4]. eapply Forall_impl; [|exact H3]. cbn. intros t (X & Y & Z). repeat split; try apply X; lia. Qed.
Lemma tidy_nil b e : tidy b e [].
Proof. split; constructor. Qed.
Lemma tidy_cons b e t ts : solid t -> b <= fst (text_range t) -> snd (text_range t) <= e -> Forall (rel t) ts -> tidy b e ts -> tidy b e (t :: ts).
Proof. intros H1 H2 H3 H4 [H5 H6]. split; constructor; auto. Qed.
Lemma tidy_app b m e l l' : b <= m -> m <= e -> tidy b m l -> tidy m e l' -> tidy b e (l ++ l').
Proof.
  intros H1 H2 H. induction l as [|t l IH]; intros H'; cbn [app]; [eapply tidy_mono; [| |exact H']; lia|].
  destruct H as [F P]. inversion F as [|? ? (S & B1 & B2) F']; subst. inversion P as [|? ? R P']; subst. apply tidy_cons; auto; [lia| |apply IH; [split; auto|exact H']].
  apply Forall_app. split; [exact R|]. destruct H' as [F2 _]. eapply Forall_impl; [|exact F2]. cbn. intros x (_ & X & _). left. unfold before. lia.
Qed.
Lemma tidy_root b e ty ts : ty = TArray \/ ty = TObject -> b + 1 < e -> tidy (b + 1) (e - 1) ts -> tidy b e (mkTok ty b e :: ts).
Proof.
  intros Hty Hbe H. apply tidy_cons.
  - destruct Hty as [-> | ->]; unfold solid, text_range; cbn; split; try lia; discriminate.
  - destruct Hty as [-> | ->]; cbn; lia.
  - destruct Hty as [-> | ->]; cbn; lia.
  - destruct H as [F _]. eapply Forall_impl; [|exact F]. cbn. intros x (_ & X & Y). right. unfold holds; destruct Hty as [-> | ->]; [change (text_range (mkTok TArray b e)) with (b, e)|change (text_range (mkTok TObject b e)) with (b, e)]; cbn [t_type fst snd]; (split; [tauto|lia]).
  - eapply tidy_mono; [| |exact H]; lia.
Qed.
Lemma tidy_leaf b e t : solid t -> b <= fst (text_range t) -> snd (text_range t) <= e -> tidy b e [t].
Proof. intros H1 H2 H3. apply tidy_cons; auto using tidy_nil. Qed.

Lemma ival_tidy p s it r : ival p s it r -> tidy p (end_of it) (tokens_of it).
Proof.
  revert p s it r.
  apply (ival_ind2 (fun p s it r => tidy p (end_of it) (tokens_of it))
    (fun p s l r => tidy p (p + (len s - len r) - 1) (flat_map tokens_of l))
    (fun p s ms r => tidy p (p + (len s - len r) - 1) (flat_map (fun m => mkTok TString (fst (snd (fst m)) + 1) (snd (snd (fst m)) - 1) :: tokens_of (snd m)) ms))).
  - intros p w t r Hw Ht. cbn [tokens_of end_of]. pose proof (len_pos w). apply primitive_len in Ht. assert (1 <= len t) by (unfold len; lia). apply tidy_leaf; [split; [cbn; lia|discriminate]|cbn; lia|cbn; lia].
  - intros p w t cs r Hw Ht. cbn [tokens_of end_of]. pose proof (len_pos w). apply gchars_app in Ht as [Ht _]. assert (1 <= len t) by (unfold len; lia). apply tidy_leaf; [split; cbn; lia|cbn; lia|cbn; lia].
  - intros p w w' r Hw Hw'. cbn [tokens_of end_of flat_map]. pose proof (len_pos w). pose proof (len_pos w'). eapply tidy_mono; [| |apply tidy_root; [now left| |apply tidy_nil]]; lia.
  - intros p w s l r Hw Hl H. cbn [tokens_of end_of]. apply ielems_len in Hl as (t & -> & Ht). rewrite len_app in *. assert (1 <= len t) by (unfold len; lia). pose proof (len_pos w).
    eapply tidy_mono; [| |apply tidy_root; [now left| |eapply tidy_mono; [| |exact H]]]; lia.
  - intros p w w' r Hw Hw'. cbn [tokens_of end_of flat_map]. pose proof (len_pos w). pose proof (len_pos w'). eapply tidy_mono; [| |apply tidy_root; [now right| |apply tidy_nil]]; lia.
  - intros p w s l r Hw Hl H. cbn [tokens_of end_of]. apply imembers_len in Hl as (t & -> & Ht). rewrite len_app in *. assert (1 <= len t) by (unfold len; lia). pose proof (len_pos w).
    eapply tidy_mono; [| |apply tidy_root; [now right| |eapply tidy_mono; [| |exact H]]]; lia.
  - intros p s it w r Hv H Hw. cbn [flat_map]. rewrite app_nil_r. apply head_range in Hv as (_ & _ & _ & He & _). rewrite len_app, len_cons in He. pose proof (len_pos w). eapply tidy_mono; [| |exact H]; lia.
  - intros p s it w s' l r Hv H Hw Hl H'. cbn [flat_map]. apply ival_places in Hv as (w0 & t0 & -> & _ & _ & Hb & He & _). apply ielems_len in Hl as (t & -> & Ht). rewrite !len_app, !len_cons, !len_app in *.
    assert (1 <= len t) by (unfold len; lia). pose proof (len_pos w). pose proof (len_pos w0). pose proof (len_pos t0).
    apply (tidy_app p (end_of it)); [lia|lia|exact H|]. eapply tidy_mono; [| |exact H']; lia.
  - intros p w t k w' s it w'' r Hw Hk Hw' Hv H Hw''. cbn [flat_map fst snd]. apply gchars_app in Hk as [Hk _]. assert (1 <= len t) by (unfold len; lia). apply ival_places in Hv as (w0 & t0 & -> & _ & _ & Hb & He & _).
    repeat rewrite ?len_app, ?len_cons in *. pose proof (len_pos w). pose proof (len_pos w'). pose proof (len_pos w''). pose proof (len_pos w0). pose proof (len_pos t0).
    rewrite app_nil_r. change (?x :: ?l) with ([x] ++ l). apply (tidy_app p (p + len w + 1 + len t)); [lia|lia| |eapply tidy_mono; [| |exact H]; lia]. apply tidy_leaf; [split; cbn; lia|cbn; lia|cbn; lia].
  - intros p w t k w' s it w'' s' ms r Hw Hk Hw' Hv H Hw'' Hl H'. cbn [flat_map fst snd]. apply gchars_app in Hk as [Hk _]. assert (1 <= len t) by (unfold len; lia). apply ival_places in Hv as (w0 & t0 & -> & _ & _ & Hb & He & _).
    apply imembers_len in Hl as (t' & -> & Ht). assert (1 <= len t') by (unfold len; lia). repeat rewrite ?len_app, ?len_cons in *.
    pose proof (len_pos w). pose proof (len_pos w'). pose proof (len_pos w''). pose proof (len_pos w0). pose proof (len_pos t0).
    cbn [app]. match goal with |- tidy _ _ (?x :: ?l) => change (x :: l) with ([x] ++ l) end. apply (tidy_app p (p + len w + 1 + len t)); [lia|lia|apply tidy_leaf; [split; cbn; lia|cbn; lia|cbn; lia]|].
    apply (tidy_app _ (end_of it)); [lia|lia|eapply tidy_mono; [| |exact H]; lia|eapply tidy_mono; [| |exact H']; lia].
Qed.
Lemma document_tidy data b e root : document data b e root -> tidy b e (tokens_of root).
Proof.
  intros (pre & s & w & post & -> & -> & -> & H & Hw). pose proof (ival_tidy _ _ _ _ H) as T. apply head_range in H as (_ & _ & _ & He & _). pose proof (len_pos w). eapply tidy_mono; [| |exact T]; lia.
Qed.

Lemma tops_exist b e t0 ts : tidy b e (t0 :: ts) -> exists cs, tops t0 ts cs /\ Forall (fun t => b <= fst (text_range t) < snd (text_range t) /\ snd (text_range t) <= e) cs.
Proof.
  intros H. pose proof (tops_scan _ _ _ _ H) as Hc. eexists. split; [exact Hc|]. apply Forall_forall. intros t Hi. destruct (tops_in _ _ _ _ _ _ H Hc Hi) as (_ & H1 & H2 & _). auto.
Qed.

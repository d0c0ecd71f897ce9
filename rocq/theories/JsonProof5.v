(** The lemmas behind JsonProps.v. *)
From Verif Require Import Base HashSpec HashModel HashProof HashProof2 HasherModel StringMapSpec StringMapModel StringMapProof StringMapProof2
  JsonSpec JsonModel JsonDenotes JsonProof JsonProof2 JsonProof3 JsonProof4.
From Coq Require Import List NArith ZArith Bool Lia Permutation.
From Coq.Init Require Import Byte.
From Coq.Strings Require Import Byte.
Import ListNotations.

Lemma parse_total lay s : (N.of_nat (length s) < 2^28)%N -> exists ok v, parse lay s = Ret (ok, v) /\ (ok = false -> v = JUndef).
Proof.
  intros Hs. destruct (parse_ok lay s Hs) as [(a & r & v & _ & _ & _ & H)|(_ & H)]; rewrite H; eexists _, _; split; auto; discriminate.
Qed.

Lemma parse_exactly lay s : (N.of_nat (length s) < 2^28)%N ->
  exists ok v, parse lay s = Ret (ok, v) /\ (ok = true <-> exists a r, gval (readable lay) s a r) /\
    (forall a r, gval (readable lay) s a r -> short_keys a -> denotes v a).
Proof.
  intros Hs. change (readable lay) with (layout_lits lay).
  destruct (parse_ok lay s Hs) as [(a & r & v & H1 & H2 & H3 & H4)|(H1 & H2)].
  - exists true, v. splits; auto.
    + intros _. eauto.
    + intros a' r' Hg Hk. destruct (gval_det _ _ _ _ _ _ H1 Hg) as [<- <-]. apply build_denotes; auto.
      apply (gval_fits _ _ _ _ H1). lia.
  - exists false, JUndef. splits; auto.
    + discriminate.
    + intros (a & r & H). exfalso. eapply H1; eauto.
    + intros a r H. exfalso. eapply H1; eauto.
Qed.

Lemma parse_documented lay s : (N.of_nat (length s) < 2^28)%N -> good_layout lay ->
  exists ok v, parse lay s = Ret (ok, v) /\ (ok = true <-> exists a r, gval documented s a r) /\
    (forall a r, gval documented s a r -> short_keys a -> denotes v a).
Proof.
  intros Hs Hg. destruct (parse_exactly lay s Hs) as (ok & v & H1 & H2 & H3).
  pose proof (good_layout_lits lay Hg) as HL. change (layout_lits lay) with (readable lay) in HL.
  assert (Heq : forall a r, gval (readable lay) s a r <-> gval documented s a r).
  { intros a r. split; apply gval_lits; auto. }
  exists ok, v. splits; auto.
  - intros E. apply H2 in E. destruct E as (a & r & H). exists a, r. now apply Heq.
  - intros (a & r & H). apply H2. exists a, r. now apply Heq.
  - intros a r H. apply (H3 a r). now apply Heq.
Qed.

Lemma bad_layout_rejects lay r : (a_end lay <= a_rue lay + 2)%N -> parse lay (literal true ++ r) = Ret (false, JUndef).
Proof.
  intros H. set (s := literal true ++ r).
  unfold parse. assert (Hp : parse_value lay (S (length s)) s (mkC [] JUndef) = Throw (ParserError no_true)); [|now rewrite Hp].
  cbn [parse_value]. unfold parse_object. rewrite skip_ws_eq.
  subst s. cbn [literal app drop_ws bind]. change (wsb x74) with false. cbv iota.
  rewrite have_eq by discriminate. change (beqb x74 x7b) with false. cbn [bind]. cbv iota.
  unfold parse_array. rewrite skip_ws_eq. cbn [bind drop_ws]. change (wsb x74) with false. cbv iota.
  rewrite have_eq by discriminate. change (beqb x74 x5b) with false. cbn [bind]. cbv iota.
  unfold parse_string. rewrite skip_ws_eq. cbn [bind drop_ws]. change (wsb x74) with false. cbv iota.
  rewrite have_eq by discriminate. change (beqb x74 x22) with false. cbn [bind]. cbv iota.
  unfold parse_boolean. rewrite skip_ws_eq. cbn [bind drop_ws]. change (wsb x74) with false. cbv iota.
  rewrite have_eq by discriminate. change (beqb x74 x74) with true. cbn [bind]. cbv iota.
  destruct (expect_pat_ok (a_end lay) (a_rue lay) [x72; x75; x65] no_true (x72 :: x75 :: x65 :: r)) as [(q & Ha & _)|(_ & ->)].
  - repeat constructor; discriminate.
  - cbn. lia.
  - exfalso. unfold addr_ok in Ha. cbn in Ha. apply N.ltb_lt in Ha. lia.
  - reflexivity.
Qed.

Lemma two_layouts l1 l2 s : (N.of_nat (length s) < 2^28)%N -> (forall a r, gval documented s a r -> ~ has_bool a) ->
  parse l1 s = parse l2 s.
Proof.
  intros Hs Hb.
  assert (Hd : forall L a r, gval L s a r -> gval documented s a r) by (intros L a r; apply gval_lits; auto).
  destruct (parse_ok l1 s Hs) as [(a & r & v & H1 & H2 & H3 & H4)|(H1 & H2)];
  destruct (parse_ok l2 s Hs) as [(a' & r' & v' & H1' & H2' & H3' & H4')|(H1' & H2')].
  - destruct (gval_det _ _ _ _ _ _ (Hd _ _ _ H1) (Hd _ _ _ H1')) as [<- <-]. congruence.
  - exfalso. apply (H1' a r). eapply gval_nobool; [exact H1|]. eapply Hb. eapply Hd. exact H1.
  - exfalso. apply (H1 a' r'). eapply gval_nobool; [exact H1'|]. eapply Hb. eapply Hd. exact H1'.
  - congruence.
Qed.

Lemma success_prefix lay s v : (N.of_nat (length s) < 2^28)%N -> parse lay s = Ret (true, v) ->
  exists p r, s = p ++ r /\ p <> [] /\ (exists a, gval documented p a []) /\ parse lay p = Ret (true, v).
Proof.
  intros Hs Hp. destruct (parse_ok lay s Hs) as [(a & r & v' & H1 & H2 & H3 & H4)|(H1 & H2)]; [|congruence].
  destruct (gval_prefix _ _ _ _ H1) as (p & -> & Hg). specialize (Hg [] nsd_nil). rewrite app_nil_r in Hg.
  exists p, r. splits; auto.
  - intros ->. apply gval_core in Hg. exact Hg.
  - exists a. eapply gval_lits; [|exact Hg]. auto.
  - rewrite Hp in H4. injection H4 as ->. apply (parse_exact lay p a []); auto. rewrite app_length in Hs. lia.
Qed.

Lemma root_string lay s cs r : gchars s cs r -> parse lay (x22 :: s) = Ret (true, JStr cs).
Proof.
  intros Hg. unfold parse. cbn [parse_value].
  unfold parse_object. rewrite skip_ws_eq. cbn [drop_ws bind]. change (wsb x22) with false. cbv iota.
  rewrite have_eq by discriminate. change (beqb x22 x7b) with false. cbn [bind]. cbv iota.
  unfold parse_array. rewrite skip_ws_eq. cbn [bind drop_ws]. change (wsb x22) with false. cbv iota.
  rewrite have_eq by discriminate. change (beqb x22 x5b) with false. cbn [bind]. cbv iota.
  unfold parse_string. rewrite skip_ws_eq. cbn [bind drop_ws]. change (wsb x22) with false. cbv iota.
  rewrite have_eq by discriminate. change (beqb x22 x22) with true. cbn [bind]. cbv iota.
  destruct (string_loop_ok (S (length s)) s []) as [(cs' & r' & Hg' & ->)|(Hno & _)]; [lia| |exfalso; eapply Hno; eauto].
  destruct (gchars_det _ _ _ Hg _ _ Hg') as [<- <-]. reflexivity.
Qed.

Lemma string_round_trip lay s : exists t, print (JStr s) = Ret t /\ parse lay t = Ret (true, JStr s).
Proof. eexists. split; [reflexivity|]. eapply root_string. apply (print_str_gchars s []). Qed.

Lemma simple_inj v1 v2 t : simple v1 -> simple v2 -> print v1 = Ret t -> print v2 = Ret t -> v1 = v2.
Proof.
  intros S1 S2 P1 P2.
  destruct (print_simple documented v1 (fun _ => eq_refl) S1) as (t1 & Ht1 & Hg1).
  destruct (print_simple documented v2 (fun _ => eq_refl) S2) as (t2 & Ht2 & Hg2).
  assert (t1 = t2) by congruence. subst t2. destruct (gval_det _ _ _ _ _ _ (Hg1 [] nsd_nil) (Hg2 [] nsd_nil)) as [H _].
  pose proof (build_ast_of _ S1). pose proof (build_ast_of _ S2). congruence.
Qed.

Lemma int_parse lay neg s n r : (N.of_nat (length s) < 2^27)%N -> gnat s n r ->
  parse lay (sign neg ++ s) = Ret (true, JInt (reduce256 (signed neg n))).
Proof.
  intros Hs Hg. apply (parse_exact lay (sign neg ++ s) (AInt (signed neg n)) r); auto.
  - change (2^27)%N with 134217728%N in Hs. change (2^28)%N with 268435456%N. rewrite app_length. destruct neg; cbn [sign length]; lia.
  - destruct neg.
    + apply (G_neg _ [] s n r); auto. constructor.
    + apply (G_nat _ [] s n r); auto. constructor.
Qed.

Lemma int_print z : exists t, print (JInt z) = Ret t /\ gval documented t (AInt z) [] /\
  ((z < 0)%Z -> exists t', t = x2d :: t') /\ ((0 <= z)%Z -> exists c t', t = c :: t' /\ digit c).
Proof.
  eexists. split; [reflexivity|]. split; [|split].
  - pose proof (int_text_gval documented z [] nsd_nil) as H. now rewrite app_nil_r in H.
  - intros H. unfold int_text. destruct (Z.ltb_spec z 0); [eauto|lia].
  - intros H. unfold int_text. destruct (Z.ltb_spec z 0); [lia|].
    pose proof (dec_text_gnat (Z.to_N z) [] nsd_nil) as Hg. rewrite app_nil_r in Hg. now apply gnat_head in Hg.
Qed.

Lemma object_parse lay s ms r : (N.of_nat (length s) < 2^28)%N -> gval (readable lay) s (AObj ms) r -> short_keys (AObj ms) ->
  exists t, parse lay s = Ret (true, JObj t) /\ nE t = distinct ms /\
    (forall k, match last_binding k ms with
               | Some a => exists v, value_key (JObj t) k = Ret v /\ denotes v a
               | None => value_key (JObj t) k = Throw OutOfRangeKey
               end).
Proof.
  intros Hs Hg Hk. destruct (parse_exactly lay s Hs) as (ok & v & H1 & H2 & H3).
  assert (ok = true) by (apply H2; eauto). subst ok.
  specialize (H3 _ _ Hg Hk). inversion H3 as [| | | |t ms' E1 E2 E3 E4]; subst.
  exists t. splits; auto. intros k. cbn [value_key]. destruct (last_binding k ms) eqn:El; eauto.
Qed.

Lemma code_parse lay h1 h2 h3 h4 n : spells h1 h2 h3 h4 n ->
  parse lay [x22; x5c; x75; h1; h2; h3; h4; x22] = Ret (true, JStr [byte_of_N n]).
Proof.
  intros (n1 & n2 & n3 & n4 & E1 & E2 & E3 & E4 & ->). eapply root_string. eapply GC_code; eauto. constructor.
Qed.

Lemma value_idx_arr l i : (N.of_nat (length l) < 2^63)%N -> (-(2^31) <= i < 2^31)%Z ->
  value_idx (JArr l) i =
  if ((0 <=? i) && (i <? Z.of_nat (length l)))%Z then Ret (nth (Z.to_nat i) l JUndef) else Throw OutOfRangeVector.
Proof.
  intros Hl Hi. cbn [value_idx]. change (2^63)%N with 9223372036854775808%N in Hl.
  change (2^31)%Z with 2147483648%Z in Hi.
  destruct (Z.leb_spec 0 i) as [H0|H0]; cbn [andb].
  - rewrite Z.mod_small by lia. destruct (Z.ltb_spec i (Z.of_nat (length l))) as [H1|H1].
    + replace (N.of_nat (length l) <=? Z.to_N i)%N with false by (symmetry; apply N.leb_gt; lia).
      replace (N.to_nat (Z.to_N i)) with (Z.to_nat i) by lia.
      destruct (nth_error l (Z.to_nat i)) as [x|] eqn:E.
      * now rewrite (nth_error_nth _ _ _ E).
      * apply nth_error_None in E. lia.
    + replace (N.of_nat (length l) <=? Z.to_N i)%N with true by (symmetry; apply N.leb_le; lia). reflexivity.
  - replace (i mod 18446744073709551616)%Z with (i + 18446744073709551616)%Z.
    2:{ symmetry. rewrite <- (Z.mod_add i 1) by lia. apply Z.mod_small. lia. }
    replace (N.of_nat (length l) <=? Z.to_N (i + 18446744073709551616))%N with true by (symmetry; apply N.leb_le; lia). reflexivity.
Qed.

Lemma value_key_obj l t as_ : sm_run JUndef (sm_new 8) l = Ret (t, as_) -> (N.of_nat (length l) <= 2^28)%N -> Forall (short (V := jvalue)) l ->
  forall k, value_key (JObj t) k = match get bytes_eqb (fst (map_run JUndef [] l)) k with Some v => Ret v | None => Throw OutOfRangeKey end.
Proof.
  intros Hr Hl Hs k. destruct (models_new (K := bytes) (V := jvalue) hash_SDBM 8 eq_refl) as [Hm0 HE0].
  destruct (sm_run_ok JUndef l (sm_new 8) [] Hm0) as (t' & H1 & H2); auto.
  rewrite Hr in H1. injection H1 as <- _. cbn [value_key]. now apply sm_at_models.
Qed.

(** ** Values built by a program *)

Lemma in_map_step (m : list (bytes * jvalue)) o k v : In (k, v) (fst (map_step JUndef m o)) ->
  In (k, v) m \/ (exists k', mop_key o = Some k' /\ k = k') /\ (v = JUndef \/ o = MSet k v).
Proof.
  destruct o as [k' v'|k'|k'|k'|k'| |]; cbn [map_step mop_key]; try (cbn [fst]; auto; fail).
  - cbn [fst]. unfold put. intros [H|H].
    + injection H as <- <-. right. split; eauto.
    + apply (in_del _ bytes_eqb_ok) in H as [H _]. auto.
  - destruct (get bytes_eqb m k'); cbn [fst]; auto. unfold put. intros [H|H].
    + injection H as <- <-. right. split; eauto.
    + apply (in_del _ bytes_eqb_ok) in H as [H _]. auto.
  - cbn [fst]. intros H. apply (in_del _ bytes_eqb_ok) in H as [H _]. auto.
Qed.

Lemma in_map_run h : forall (m : list (bytes * jvalue)) k v, In (k, v) (fst (map_run JUndef m h)) ->
  In (k, v) m \/ (exists o, In o h /\ mop_key o = Some k) /\ (v = JUndef \/ In (MSet k v) h).
Proof.
  induction h as [|o h IH]; intros m k v H; cbn [map_run fst] in *; auto.
  destruct (map_step JUndef m o) as [m' a] eqn:E. destruct (map_run JUndef m' h) as [m'' as_] eqn:E2. cbn [fst] in H.
  specialize (IH m' k v). rewrite E2 in IH. cbn [fst] in IH. destruct (IH H) as [Hm|((o' & Ho & Hk) & Hv)].
  - pose proof (in_map_step m o k v) as Hs. rewrite E in Hs. destruct (Hs Hm) as [Hs1|((k' & Hk & <-) & Hv)]; auto.
    right. split; [exists o; cbn; auto|]. destruct Hv as [Hv|Hv]; cbn; auto.
  - right. split; [exists o'; cbn; auto|]. destruct Hv as [Hv|Hv]; cbn; auto.
Qed.

Lemma built_obj h t answers :
  (forall o k, In o h -> mop_key o = Some k -> (N.of_nat (length k) < 65536)%N) ->
  (N.of_nat (length h) <= 2^28)%N -> sm_run JUndef (sm_new 8) h = Ret (t, answers) ->
  models hash_SDBM t (fst (map_run JUndef [] h)) /\ CInv t /\ kshort t /\ tbl t <> None.
Proof.
  intros Hk Hl Hr. destruct (models_new (K := bytes) (V := jvalue) hash_SDBM 8 eq_refl) as [Hm0 HE0].
  destruct (sm_run_ok JUndef h (sm_new 8) [] Hm0) as (t' & H1 & H2); auto using short_all.
  rewrite Hr in H1. injection H1 as <- _. split; auto.
  destruct (sm_new8 (V := jvalue)) as (HC & Hb & Hks & He & _).
  destruct (sm_run_any JUndef h (sm_new 8) HC Hks) as (t'' & as'' & H3 & H4 & H5 & _).
  { rewrite He, N.add_0_l. exact Hl. }
  rewrite Hr in H3. injection H3 as <- <-. split; auto. split; auto.
  eapply sm_run_some; eauto.
Qed.

Lemma buildable_ok P v : buildable P v -> wfj v /\ all_keys P v.
Proof.
  induction 1 as [| | | |l Hl IH|h t as_ Hv IH HP Hs Hl Hr]; try (split; constructor; fail).
  - split; constructor; intros v Hin; apply (IH v Hin).
  - destruct (built_obj h t as_ Hs Hl Hr) as (Hm & HC & Hk & Hb).
    assert (Hin : forall k v, In (k, v) (tents t) -> P k /\ (v = JUndef \/ In (MSet k v) h)).
    { intros k v Hin. destruct Hm as (_ & _ & HP'). apply (Permutation_in _ (Permutation_sym HP')) in Hin.
      apply in_map_run in Hin as [[]|((o & Ho & Hko) & H)]. split; eauto. }
    assert (Hslot : forall bs b k v, tbl t = Some bs -> In b bs -> bslot b = Full (k, v) -> In (k, v) (tents t)).
    { intros bs b k v Eb Hbin Hf. unfold tents. rewrite Eb. apply In_nth_error in Hbin as (i & Hi). apply in_ents. eauto. }
    split; constructor; auto.
    + intros [k v] Hkv. apply Hin in Hkv as [_ [->|H]]; [constructor|]. cbn [snd]. now apply (IH k v).
    + intros bs b k v Eb Hbin Hf. now apply (Hin k v), (Hslot bs b).
    + intros bs b k v Eb Hbin Hf. destruct (Hin k v) as [_ [->|H]]; [now apply (Hslot bs b)|constructor|now apply (IH k v)].
Qed.

Lemma buildable_print P v : buildable P v -> exists t, print v = Ret t.
Proof. intros H. apply print_total. now apply (buildable_ok P). Qed.

Lemma buildable_nonul v t : buildable (fun k => ~ In NUL k) v -> print v = Ret t -> ~ In NUL t.
Proof. intros H. apply print_nonul. now apply (buildable_ok _). Qed.

Lemma parse_print lay s v : (N.of_nat (length s) < 2^28)%N -> parse lay s = Ret (true, v) -> exists t, print v = Ret t.
Proof.
  intros Hs Hp. destruct (parse_ok lay s Hs) as [(a & r & v' & _ & _ & Hw & H)|(_ & H)]; [|congruence].
  rewrite Hp in H. injection H as ->. now apply print_total.
Qed.

Lemma buildable_obj_parse lay (P : bytes -> Prop) t tx : (forall k, P k -> ~ In x22 k) -> buildable P (JObj t) -> (0 < nE t)%N ->
  print (JObj t) = Ret tx -> (N.of_nat (length tx) < 2^28)%N ->
  parse lay tx = Ret (false, JUndef) \/ parse lay tx = Ret (true, new_object).
Proof.
  intros HP Hbd Hn Hp Hl. destruct (buildable_ok _ _ Hbd) as [Hw Ha]. apply (print_obj_parse lay t tx); auto.
  intros [k v] He. cbn [fst]. inversion Ha as [| | | | |t' H1 H2]; subst. apply HP. unfold tents in He.
  destruct (tbl t) as [bs|] eqn:Eb; [|destruct He]. apply in_ents in He as (i & b & Hi & Hb). apply nth_error_In in Hi.
  eapply (H1 bs b k v); eauto.
Qed.

Lemma has_bool_ast_of v : simple v -> has_bool (ast_of v) -> holds_bool v.
Proof.
  induction 1 as [z Hz|b|s|l Hl IH]; cbn [ast_of has_bool holds_bool]; auto.
  clear Hl. induction l as [|x l IHl]; cbn [map fold_right]; auto. intros [H|H].
  - left. apply IH; auto. left. reflexivity.
  - right. apply IHl; auto. intros v Hv. apply IH. right. exact Hv.
Qed.

Lemma simple_round_trip lay v : simple v -> good_layout lay \/ ~ holds_bool v ->
  exists t, print v = Ret t /\ (exists a, gval documented t a []) /\
    ((N.of_nat (length t) < 2^28)%N -> parse lay t = Ret (true, v)).
Proof.
  intros Hs Hc. destruct (print_simple_parse (mkL 1000 10 20) v) as (t & H1 & H2 & H3); [split; reflexivity|auto|].
  exists t. split; auto. split; [eauto|]. intros Hl. destruct Hc as [Hg|Hb].
  - destruct (print_simple_parse lay v Hg Hs) as (t' & H1' & _ & H3'). assert (t' = t) by congruence. subst. auto.
  - rewrite (two_layouts lay (mkL 1000 10 20) t); auto.
    intros a r Hg Ha. destruct (gval_det _ _ _ _ _ _ Hg H2) as [-> _]. apply Hb. now apply has_bool_ast_of.
Qed.

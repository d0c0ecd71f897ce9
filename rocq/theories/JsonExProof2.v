(** More lemmas about the JSON example: encoding, objects, strings, the C interface. *)
From Verif Require Import Base JsonSpec JsonModel JsonDenotes JsonProof JsonProof2 JsonProof3 EniModel EniProof CryptoModel CryptoProof CliModel JsonExSpec JsonExModel JsonExProof.
From Coq Require Import List NArith ZArith Bool Lia Arith.
From Coq.Init Require Import Byte.
From Coq.Strings Require Import Byte.
Import ListNotations.
Local Open Scope Z_scope.

(** ** Encoding *)

Lemma hex_char_value d : (d < 16)%N -> hex_value (hex_char d) = Some d.
Proof.
  intros H. assert (Hd : In d [0;1;2;3;4;5;6;7;8;9;10;11;12;13;14;15]%N) by (cbn; lia). cbn in Hd. intuition (subst; reflexivity).
Qed.

Definition hstep (a : option N) (c : byte) : option N := match a, hex_value c with Some n, Some d => Some (16 * n + d)%N | _, _ => None end.

Lemma hex_step n i : hstep (Some (n / 16 ^ (N.succ i))%N) (hex_char ((n / 16 ^ i) mod 16)%N) = Some (n / 16 ^ i)%N.
Proof.
  unfold hstep. rewrite hex_char_value by (apply N.mod_lt; discriminate). f_equal.
  assert (E : (n / 16 ^ N.succ i = (n / 16 ^ i) / 16)%N). { rewrite N.pow_succ_r', (N.mul_comm 16). symmetry. apply N.div_div; [apply N.pow_nonzero; discriminate|discriminate]. }
  rewrite E. symmetry. apply N.div_mod. discriminate.
Qed.

Lemma hex8_length z : length (hex8 z) = 8%nat.
Proof. reflexivity. Qed.

Lemma hex8_number z : 0 <= z < 4294967296 -> hex_number (hex8 z) = Some (Z.to_N z).
Proof.
  intros H. unfold hex8. rewrite Z.mod_small by auto. set (n := Z.to_N z). assert (Hn : (n < 4294967296)%N) by lia.
  unfold hex_number. change (fold_left _ ?l ?a) with (fold_left hstep l a).
  assert (E : Some 0%N = Some (n / 16 ^ 8)%N) by (f_equal; symmetry; apply N.div_small; exact Hn). rewrite E. clearbody n. clear E.
  change [7;6;5;4;3;2;1;0]%N with [7;6;5;4;3;2;1;0]%N. cbn [map fold_left].
  change 8%N with (N.succ 7). rewrite (hex_step n 7). change 7%N with (N.succ 6) at 1. rewrite (hex_step n 6). change 6%N with (N.succ 5) at 1. rewrite (hex_step n 5).
  change 5%N with (N.succ 4) at 1. rewrite (hex_step n 4). change 4%N with (N.succ 3) at 1. rewrite (hex_step n 3). change 3%N with (N.succ 2) at 1. rewrite (hex_step n 2).
  change 2%N with (N.succ 1) at 1. rewrite (hex_step n 1). change 1%N with (N.succ 0) at 1. rewrite (hex_step n 0). f_equal. apply N.div_1_r.
Qed.

Lemma spells_hex8 b e : 0 <= b < 4294967296 -> 0 <= e < 4294967296 -> spells_range (hex8 b ++ hex8 e) b e.
Proof. intros Hb He. split; [reflexivity|]. change (firstn 8 (hex8 b ++ hex8 e)) with (hex8 b). change (skipn 8 (hex8 b ++ hex8 e)) with (hex8 e). split; now apply hex8_number. Qed.

Lemma int_add_ok a b : -2147483648 <= a + b <= 2147483647 -> int_add a b = Ret (a + b).
Proof. intros H. unfold int_add. destruct (Z.leb_spec (-2147483648) (a + b)); [|lia]. destruct (Z.leb_spec (a + b) 2147483647); [|lia]. reflexivity. Qed.

Lemma encode_head it : 0 <= begin_of it <= 2147483647 -> 0 <= end_of it <= 2147483647 -> encode_token (head_token it) = Ret (hex8 (begin_of it) ++ hex8 (end_of it)).
Proof.
  intros Hb He. unfold encode_token. destruct it; cbn [head_token t_type t_start t_end begin_of end_of] in *; rewrite !int_add_ok by lia; cbn [bind]; do 2 f_equal; f_equal; lia.
Qed.

Lemma firstn_exact {A} (a b : list A) : firstn (length a) (a ++ b) = a.
Proof. rewrite firstn_app, Nat.sub_diag, firstn_O, app_nil_r. apply firstn_all. Qed.

Lemma concat_16 {A} (hs : list (list A)) : Forall (fun h => length h = 16%nat) hs -> forall i h, nth_error hs i = Some h -> firstn 16 (skipn (16 * i) (concat hs)) = h.
Proof.
  induction 1 as [|h0 hs H0 H IH]; intros [|i] h E; cbn [nth_error] in E; try discriminate.
  - injection E as ->. rewrite Nat.mul_0_r. cbn [concat]. change (skipn 0 ?x) with x. rewrite firstn_app, firstn_all2, H0, Nat.sub_diag, firstn_O, app_nil_r by lia. reflexivity.
  - cbn [concat]. replace (16 * S i)%nat with (length h0 + 16 * i)%nat by lia. rewrite skipn_app, skipn_all2 by lia. cbn [app]. replace (length h0 + 16 * i - length h0)%nat with (16 * i)%nat by lia. now apply IH.
Qed.

Lemma concat_len {A} n (hs : list (list A)) : Forall (fun h => length h = n) hs -> length (concat hs) = (n * length hs)%nat.
Proof. induction 1 as [|h hs H0 H IH]; cbn [concat length]; [lia|]. rewrite app_length. lia. Qed.

Lemma document_nonneg data b e it : document data b e it -> 0 <= b /\ b <= begin_of it /\ end_of it <= e /\ e <= len data.
Proof.
  intros H. pose proof (document_ival _ _ _ _ H) as (? & ? & ? & _ & _ & _ & H1 & H2 & _). destruct H as (pre & s & w & post & -> & -> & -> & _). rewrite !len_app. pose proof (len_pos pre). pose proof (len_pos post). lia.
Qed.

Lemma child_ok data b e root it : document data b e root -> child it root -> e <= 2147483647 ->
  0 <= begin_of it <= 2147483647 /\ 0 <= end_of it <= 2147483647.
Proof. intros H Hc He. pose proof (document_nonneg _ _ _ _ H). pose proof (document_child _ _ _ _ _ H Hc). lia. Qed.

Section Example.
  Variable jsmn : bytes -> Z -> Z -> outcome (Z * list token).

  Lemma internal_ok data b e it : jsmn_answers jsmn data b e it -> internal_parse jsmn data b e = Ret (tokens_of it).
  Proof.
    unfold jsmn_answers, internal_parse. intros ->. cbn [bind]. destruct (Z.ltb_spec (Z.of_nat (length (tokens_of it))) 0); [lia|]. rewrite Nat2Z.id, firstn_app, Nat.sub_diag, firstn_O, app_nil_r, firstn_all. reflexivity.
  Qed.

  Lemma array_tokens_ok data b e l lb le : document data b e (Arr l lb le) -> jsmn_answers jsmn data b e (Arr l lb le) -> array_tokens jsmn data b e = Ret (map head_token l).
  Proof.
    intros (pre & s & w & post & -> & -> & -> & H & Hw) Hj. unfold array_tokens. rewrite (internal_ok _ _ _ _ Hj). cbn [bind].
    destruct (array_scan_root _ _ _ _ _ _ H) as (ts & -> & E). cbn [t_start t_end]. now rewrite E.
  Qed.

  Lemma array_get_ok data b e l lb le i it : document data b e (Arr l lb le) -> jsmn_answers jsmn data b e (Arr l lb le) -> e <= 2147483647 ->
    nth_error l i = Some it -> array_get jsmn data b e (Z.of_nat i) = Ret (hex8 (begin_of it) ++ hex8 (end_of it)).
  Proof.
    intros H Hj He Hi. unfold array_get. rewrite (array_tokens_ok _ _ _ _ _ _ H Hj). cbn [bind]. destruct (Z.ltb_spec (Z.of_nat i) 0); [lia|]. rewrite Nat2Z.id, nth_error_map, Hi. cbn [option_map].
    destruct (child_ok _ _ _ _ it H (nth_error_In _ _ Hi) He). now apply encode_head.
  Qed.

  Lemma array_get_bad data b e l lb le i : document data b e (Arr l lb le) -> jsmn_answers jsmn data b e (Arr l lb le) ->
    i < 0 \/ Z.of_nat (length l) <= i -> array_get jsmn data b e i = UB OutOfBounds.
  Proof.
    intros H Hj Hi. unfold array_get. rewrite (array_tokens_ok _ _ _ _ _ _ H Hj). cbn [bind]. destruct (Z.ltb_spec i 0); [reflexivity|].
    destruct (nth_error (map head_token l) (Z.to_nat i)) eqn:E; [|reflexivity]. assert (Hn : (Z.to_nat i < length (map head_token l))%nat) by (apply nth_error_Some; congruence). rewrite map_length in Hn. lia.
  Qed.

  Lemma sequence_ok {A B} (f : A -> outcome B) (g : A -> B) l : (forall a, In a l -> f a = Ret (g a)) -> sequence (map f l) = Ret (map g l).
  Proof. induction l as [|a l IH]; intros H; cbn [map sequence]; auto. rewrite H by now left. cbn [bind]. rewrite IH by (intros; apply H; now right). reflexivity. Qed.

  Definition range_text (it : item) : bytes := hex8 (begin_of it) ++ hex8 (end_of it).

  Lemma parse_array_ok data b e l lb le : document data b e (Arr l lb le) -> jsmn_answers jsmn data b e (Arr l lb le) -> e <= 2147483647 ->
    parse_array_fn jsmn data b e = Ret (concat (map range_text l)).
  Proof.
    intros H Hj He. unfold parse_array_fn. rewrite (array_tokens_ok _ _ _ _ _ _ H Hj). cbn [bind]. rewrite map_map.
    rewrite (sequence_ok _ range_text); [reflexivity|]. intros it Hi. destruct (child_ok _ _ _ _ it H Hi He). now apply encode_head.
  Qed.

End Example.

Section Strings.
  Variable inner : bytes -> layout.

  (** ** Strings *)

  Lemma parse_string_ok t cs r : gchars (t ++ r) cs r -> (N.of_nat (length (x22 :: t ++ r)) < 2^28)%N -> parse_string_fn inner (x22 :: t ++ r) = Ret cs.
  Proof.
    intros H Hl. unfold parse_string_fn. destruct (parse_ok (inner (x22 :: t ++ r)) (x22 :: t ++ r) Hl) as [(a & r' & v & Hg & Hb & _ & ->)|[Hn _]].
    - cbn [bind]. pose proof (G_str (layout_lits (inner (x22 :: t ++ r))) [] (t ++ r) cs r ltac:(constructor) H) as Hs. cbn [app] in Hs. destruct (gval_det _ _ _ _ _ _ Hg Hs) as [-> _].
      cbn [build] in Hb. injection Hb as <-. reflexivity.
    - exfalso. eapply Hn. apply (G_str _ [] (t ++ r) cs r); [constructor|exact H].
  Qed.

  Lemma cstr_app_nonul a b : ~ In NUL a -> cstr (a ++ b) = a ++ cstr b.
  Proof. induction a as [|c a IH]; intros H; cbn [app cstr]; auto. destruct (beqb_spec c NUL) as [->|]; [destruct H; now left|]. rewrite IH; auto. intros Hi. apply H. now right. Qed.

  Lemma firstn_prefix {A} n (a b : list A) : (length a <= n)%nat -> exists c, firstn n (a ++ b) = a ++ c.
  Proof. intros H. rewrite firstn_app, firstn_all2 by auto. eauto. Qed.

  Lemma cstr_le a : (length (cstr a) <= length a)%nat.
  Proof. induction a as [|c a IH]; cbn [cstr length]; auto. destruct (beqb c NUL); cbn [length]; lia. Qed.

  Lemma parse_string_range data b e cs sb se : document data b e (Str cs sb se) -> sb = b -> ~ In NUL (firstn (Z.to_nat e) data) -> (N.of_nat (length data) < 2^28)%N ->
    exists raw, sub_string data b e = Ret raw /\ parse_string_fn inner raw = Ret cs.
  Proof.
    intros (pre & s & w & post & -> & -> & -> & H & Hw) Hb Hn Hl. inversion H as [|p w0 t cs0 r Hw0 Hc E1 E2 E3 E4| | | |]; subst.
    assert (w0 = []) by (destruct w0; auto; rewrite len_cons in *; pose proof (len_pos w0); lia). subst w0. cbn [app] in *.
    assert (Hpre : ~ In NUL (pre ++ x22 :: t)).
    { intros Hi. apply Hn. replace (Z.to_nat (len pre + len (x22 :: t ++ w))) with (length (pre ++ x22 :: t ++ w)).
      2:{ unfold len. rewrite app_length. lia. }
      assert (Ed : pre ++ x22 :: (t ++ w) ++ post = (pre ++ x22 :: t ++ w) ++ post) by (repeat (rewrite <- !app_assoc; cbn [app]); reflexivity).
      rewrite Ed, firstn_exact. replace (pre ++ x22 :: t ++ w) with ((pre ++ x22 :: t) ++ w) by (rewrite <- app_assoc; reflexivity). apply in_or_app. now left. }
    assert (Ec : cstr (pre ++ x22 :: (t ++ w) ++ post) = pre ++ (x22 :: t) ++ cstr (w ++ post)).
    { replace (pre ++ x22 :: (t ++ w) ++ post) with ((pre ++ x22 :: t) ++ w ++ post) by (repeat (rewrite <- !app_assoc; cbn [app]); reflexivity). rewrite cstr_app_nonul by auto. now rewrite <- app_assoc. }
    pose proof (cstr_le (w ++ post)) as Hc2. unfold sub_string. rewrite Ec. pose proof (len_pos pre) as Hp.
    destruct (Z.ltb_spec (len pre) 0); [lia|]. cbn [orb]. destruct (Z.ltb_spec (Z.of_nat (length (pre ++ (x22 :: t) ++ cstr (w ++ post)))) (len pre)) as [Hlt|_].
    { rewrite app_length in Hlt. unfold len in Hlt. lia. }
    pose proof (len_pos (x22 :: t ++ w)) as Hp2. destruct (Z.ltb_spec (len pre + len (x22 :: t ++ w)) 0); [lia|].
    replace (Z.to_nat (len pre)) with (length pre) by (unfold len; lia). rewrite skipn_app, skipn_all2, Nat.sub_diag by lia. cbn [app]. change (skipn 0 ?x) with x.
    destruct (firstn_prefix (Z.to_nat (len pre + len (x22 :: t ++ w))) (x22 :: t) (cstr (w ++ post))) as (c & E).
    { unfold len. cbn [length]. rewrite app_length. lia. }
    exists (x22 :: t ++ c). cbn [app] in E. rewrite E. split; [reflexivity|]. apply parse_string_ok; [now apply gchars_app in Hc|].
    assert (Hle : (length (x22 :: t ++ c) <= length (x22 :: t ++ cstr (w ++ post)))%nat) by (rewrite <- E; rewrite firstn_length; lia).
    rewrite app_length in Hl. cbn [length app] in *. rewrite !app_length in *. lia.
  Qed.

  (** ** objectTokens *)

  Lemma get_key_ok data b e k kb ke : document data b e (Str k kb ke) -> (N.of_nat (length data) < 2^28)%N -> get_key inner data (mkTok TString (kb + 1) (ke - 1)) = Ret k.
  Proof.
    intros H Hl. pose proof (document_nonneg _ _ _ _ H) as (N1 & N2 & N3 & N4). apply document_ival in H as (pre & t & post & -> & Hb & He & _ & _ & H). cbn [begin_of end_of] in *.
    unfold len in N4. change (2^28)%N with 268435456%N in Hl. pose proof (len_pos t).
    unfold get_key. cbn [t_start t_end]. rewrite !int_add_ok by lia. cbn [bind]. replace (kb + 1 + -1) with kb by lia. replace (ke - 1 + 1) with ke by lia.
    destruct (Z.leb_spec 0 kb); [|lia]. destruct (Z.leb_spec kb ke); [|lia]. destruct (Z.leb_spec ke (Z.of_nat (length (pre ++ t ++ post)) + 1)); [|lia]. cbn [andb].
    replace (Z.to_nat kb) with (length pre) by (unfold len in Hb; lia). replace (Z.to_nat (ke - kb)) with (length t) by (unfold len in *; lia).
    rewrite <- app_assoc, skipn_app, skipn_all, Nat.sub_diag. cbn [app]. change (skipn 0 ?x) with x. rewrite <- app_assoc, firstn_app, Nat.sub_diag, firstn_O, app_nil_r, firstn_all.
    specialize (H []). inversion H as [|p w0 t0 cs0 r Hw0 Hc E1 E2 E3 E4| | | |]; subst. assert (w0 = []) by (destruct w0; auto; rewrite len_cons in *; pose proof (len_pos w0); lia). subst w0.
    cbn [app] in E2. rewrite !app_nil_r in E2. subst t. replace (x22 :: t0) with (x22 :: t0 ++ []) by now rewrite app_nil_r. apply parse_string_ok; auto. rewrite app_nil_r. rewrite !app_length in Hl. lia.
  Qed.

  Lemma object_scan_skip data rest more after before key m : Forall (fun t => t_start t < after) rest ->
    object_scan inner data (rest ++ more) after before key m = object_scan inner data more after before key m.
  Proof. induction 1 as [|t rest Ht H IH]; cbn [app object_scan]; auto. destruct (Z.ltb_spec (t_start t) after); [auto|lia]. Qed.

  Definition ftok (m : bytes * (Z * Z) * item) : list token := mkTok TString (fst (snd (fst m)) + 1) (snd (snd (fst m)) - 1) :: tokens_of (snd m).

  Lemma object_scan_member data p s it r k kb ke more after before m :
    ival p s it r -> after <= kb -> kb < ke -> ke <= p -> end_of it <= before ->
    get_key inner data (mkTok TString (kb + 1) (ke - 1)) = Ret k ->
    object_scan inner data (ftok (k, (kb, ke), it) ++ more) after before None m = object_scan inner data more (t_end (head_token it)) before None ((k, head_token it) :: m).
  Proof.
    intros H Ha Hk Hp Hb Hg. destruct (ival_tokens _ _ _ _ H) as [(rest & E & Hr) _]. pose proof (head_range _ _ _ _ H). unfold ftok. cbn [fst snd app object_scan t_start t_end]. rewrite E.
    destruct (Z.ltb_spec (kb + 1) after); [lia|]. destruct (Z.ltb_spec before (kb + 1)); [lia|]. cbn [app object_scan].
    destruct (Z.ltb_spec (t_start (head_token it)) (ke - 1)); [lia|]. destruct (Z.ltb_spec before (t_start (head_token it))); [lia|]. rewrite Hg. cbn [bind].
    apply object_scan_skip. eapply Forall_impl; [|exact Hr]. intros t. cbn. lia.
  Qed.

  Definition binding (m : bytes * (Z * Z) * item) : bytes * token := (fst (fst m), head_token (snd m)).

  Lemma object_scan_members data p s ms r : imembers p s ms r ->
    (forall k kb ke it, In (k, (kb, ke), it) ms -> get_key inner data (mkTok TString (kb + 1) (ke - 1)) = Ret k) ->
    forall after before m, after <= p -> p + (len s - len r) <= before ->
    object_scan inner data (flat_map ftok ms) after before None m = Ret (rev (map binding ms) ++ m).
  Proof.
    induction 1 as [p w t k w' s it w'' r Hw Hk Hw' H Hw''|p w t k w' s it w'' s' ms r Hw Hk Hw' H Hw'' H' IH]; intros Hg after before m Ha Hb; cbn [flat_map map rev].
    - pose proof (head_range _ _ _ _ H) as R. apply gchars_app in Hk as [Ht _]. assert (1 <= len t) by (unfold len; lia). rewrite !len_app, !len_cons, !len_app, !len_cons in *. pose proof (len_pos w). pose proof (len_pos w'). pose proof (len_pos w'').
      erewrite object_scan_member; [reflexivity|eauto|lia|lia|lia|lia|]. eapply Hg. now left.
    - pose proof (head_range _ _ _ _ H) as R. apply gchars_app in Hk as [Ht _]. assert (1 <= len t) by (unfold len; lia). destruct (imembers_len _ _ _ _ H') as (t' & -> & _). rewrite !len_app, !len_cons, !len_app, !len_cons in *. pose proof (len_pos w). pose proof (len_pos w'). pose proof (len_pos w''). pose proof (len_pos t').
      erewrite object_scan_member; [|eauto|lia|lia|lia|lia|eapply Hg; now left]. rewrite IH; [|intros; eapply Hg; right; eauto|lia|lia]. rewrite <- app_assoc. reflexivity.
  Qed.

End Strings.

Section Objects.
  Variable jsmn : bytes -> Z -> Z -> outcome (Z * list token).
  Variable inner : bytes -> layout.

  Lemma object_tokens_ok data b e ms ob oe : document data b e (Obj ms ob oe) -> jsmn_answers jsmn data b e (Obj ms ob oe) -> (N.of_nat (length data) < 2^28)%N ->
    object_tokens jsmn inner data b e = Ret (rev (map binding ms)).
  Proof.
    intros H Hj Hl. unfold object_tokens. rewrite (internal_ok _ _ _ _ _ Hj). cbn [bind tokens_of t_start t_end].
    assert (Hg : forall k kb ke it, In (k, (kb, ke), it) ms -> get_key inner data (mkTok TString (kb + 1) (ke - 1)) = Ret k).
    { intros k kb ke it Hi. assert (Hc : child (Str k kb ke) (Obj ms ob oe)) by (cbn [child]; exists (k, (kb, ke), it); auto). exact (get_key_ok _ _ _ _ _ _ _ (proj1 (document_child _ _ _ _ _ H Hc)) Hl). }
    destruct H as (pre & s & w & post & -> & -> & -> & H & Hw). inversion H; subst; [reflexivity|].
    change (flat_map _ ms) with (flat_map ftok ms). erewrite object_scan_members; [now rewrite app_nil_r|eauto|auto|lia|lia].
  Qed.

  Lemma map_get_last k ms : map_get k (rev (map binding ms)) = match last_member k ms with Some it => head_token it | None => zero_token end.
  Proof.
    assert (Hf : forall m0, match last_member k ms with
        | Some it => exists k', find (fun p => bytes_eqb (fst p) k) (rev (map binding ms) ++ m0) = Some (k', head_token it)
        | None => find (fun p => bytes_eqb (fst p) k) (rev (map binding ms) ++ m0) = find (fun p => bytes_eqb (fst p) k) m0
        end).
    { induction ms as [|[[k' rg] it] ms IH]; intros m0; cbn [map rev last_member]; [reflexivity|]. rewrite <- app_assoc. cbn [app].
      specialize (IH ((binding (k', rg, it)) :: m0)). destruct (last_member k ms) as [it'|]; [exact IH|].
      rewrite IH. cbn [find binding fst snd]. destruct (bytes_eqb k' k); [|reflexivity]. eexists. reflexivity. }
    unfold map_get. specialize (Hf []). rewrite app_nil_r in Hf. destruct (last_member k ms) as [it|].
    - destruct Hf as (k' & ->). reflexivity.
    - rewrite Hf. reflexivity.
  Qed.

  Lemma last_member_in k ms it : last_member k ms = Some it -> exists m, In m ms /\ it = snd m.
  Proof.
    induction ms as [|[[k' rg] it0] ms IH]; cbn [last_member]; [discriminate|]. destruct (last_member k ms) as [it'|].
    - intros E. injection E as <-. destruct (IH eq_refl) as (m & Hm & ->). exists m. split; [now right|auto].
    - destruct (bytes_eqb k' k); [|discriminate]. intros E. injection E as <-. eexists. split; [now left|reflexivity].
  Qed.

  Lemma object_get_ok data b e ms ob oe k : document data b e (Obj ms ob oe) -> jsmn_answers jsmn data b e (Obj ms ob oe) -> (N.of_nat (length data) < 2^28)%N ->
    object_get jsmn inner data b e k = Ret (match last_member k ms with Some it => range_text it | None => repeat x30 16 end).
  Proof.
    intros H Hj Hl. unfold object_get. rewrite (object_tokens_ok _ _ _ _ _ _ H Hj Hl). cbn [bind]. rewrite map_get_last. destruct (last_member k ms) as [it|] eqn:E.
    - destruct (last_member_in _ _ _ E) as (m & Hm & Ei). assert (Hc : child it (Obj ms ob oe)) by (cbn; eauto). pose proof (document_nonneg _ _ _ _ H) as N. unfold len in N. change (2^28)%N with 268435456%N in Hl.
      destruct (child_ok _ _ _ _ it H Hc ltac:(lia)). now apply encode_head.
    - reflexivity.
  Qed.
End Objects.

(** Printing. *)
From Verif Require Import Base HashSpec HashModel HashProof HashProof2 HasherModel StringMapSpec StringMapModel StringMapProof
  JsonSpec JsonModel JsonDenotes JsonProof JsonProof2 JsonProof3.
From Coq Require Import List NArith ZArith Bool Lia Permutation.
From Coq.Init Require Import Byte.
From Coq.Strings Require Import Byte.
Import ListNotations.

(** ------------------------------------------------------------------ strings *)

Lemma print_char_cases c :
  (print_char c = [x5c; c] /\ In (c, c) short_escapes) \/
  (print_char c = [x5c; x75; x30; x30; hex_digit (bval c / 16); hex_digit (bval c mod 16)] /\
   hex_value (hex_digit (bval c / 16)) = Some (bval c / 16)%N /\ hex_value (hex_digit (bval c mod 16)) = Some (bval c mod 16)%N /\
   c = byte_of_N (((0 * 16 + 0) * 16 + bval c / 16) * 16 + bval c mod 16)) \/
  (print_char c = [c] /\ c <> x22 /\ c <> x5c /\ c <> NUL).
Proof.
  destruct c; first [right; right; split; [reflexivity|repeat split; discriminate] | right; left; repeat split; vm_compute; reflexivity
                    | left; split; [reflexivity|cbn; auto 10]].
Qed.

Lemma print_char_gchars c s cs r : gchars s cs r -> gchars (print_char c ++ s) (c :: cs) r.
Proof.
  intros H. destruct (print_char_cases c) as [(-> & Hi)|[(-> & H1 & H2 & H3)|(-> & H1 & H2 & _)]]; cbn [app].
  - now constructor.
  - rewrite H3 at 3. now apply GC_code.
  - now constructor.
Qed.

Lemma print_str_gchars s r : gchars (flat_map print_char s ++ x22 :: r) s r.
Proof.
  induction s as [|c s IH]; cbn [flat_map app]; [constructor|]. rewrite <- app_assoc. now apply print_char_gchars.
Qed.

Lemma print_char_nonul c : ~ In NUL (print_char c).
Proof. destruct c; cbn; intros H; repeat (destruct H as [H|H]; [discriminate|]); exact H. Qed.

(** ------------------------------------------------------------------ integers *)

Lemma decimal_snoc ds d : decimal (ds ++ [d]) = (10 * decimal ds + digit_value d)%N.
Proof. unfold decimal. now rewrite fold_left_app. Qed.

Lemma digit_of_N n : (n < 10)%N -> digit (byte_of_N (48 + n)) /\ digit_value (byte_of_N (48 + n)) = n /\ (byte_of_N (48 + n) = x30 -> n = 0%N).
Proof.
  intros H. unfold digit, digit_value. rewrite bval_byte_of_N. rewrite N.mod_small by lia. splits; try lia.
  intros E. apply (f_equal bval) in E. rewrite bval_byte_of_N in E. rewrite N.mod_small in E by lia. change (bval x30) with 48%N in E. lia.
Qed.

Lemma dec_loop_ok f : forall n acc, (n < 10 ^ N.of_nat f)%N -> (0 < f)%nat ->
  exists d ds, dec_loop f n acc = (d :: ds) ++ acc /\ decimal (d :: ds) = n /\ Forall digit (d :: ds) /\ (d = x30 -> n = 0%N /\ ds = []).
Proof.
  induction f as [|f IH]; intros n acc Hn Hf; [lia|]. cbn [dec_loop].
  assert (Hm : (n mod 10 < 10)%N) by (apply N.mod_lt; lia).
  destruct (digit_of_N (n mod 10) Hm) as (D1 & D2 & D3).
  destruct (N.ltb_spec n 10) as [Hlt|Hge].
  - rewrite N.mod_small in * by auto. exists (byte_of_N (48 + n)), []. splits; auto.
  - assert (Hq : (n / 10 < 10 ^ N.of_nat f)%N).
    { apply N.div_lt_upper_bound; [lia|]. rewrite Nat2N.inj_succ, N.pow_succ_r' in Hn. lia. }
    assert (Hf' : (0 < f)%nat). { destruct f; [|lia]. cbn in Hn. lia. }
    destruct (IH (n / 10)%N (byte_of_N (48 + n mod 10) :: acc) Hq Hf') as (d & ds & -> & Hd & Hdig & Hz).
    exists d, (ds ++ [byte_of_N (48 + n mod 10)]). splits.
    + cbn. now rewrite <- app_assoc.
    + rewrite app_comm_cons, decimal_snoc, Hd, D2. symmetry. apply N.div_mod'.
    + rewrite app_comm_cons. apply Forall_app. auto.
    + intros ->. destruct Hz as [Hz _]; auto. apply N.div_small_iff in Hz; lia.
Qed.

Lemma size_bound n : (n < 10 ^ N.of_nat (S (N.size_nat n)))%N.
Proof.
  assert (H : (n < 2 ^ N.of_nat (N.size_nat n))%N).
  { destruct n as [|p]; cbn [N.size_nat]; [reflexivity|].
    induction p as [p IH|p IH|]; cbn [Pos.size_nat]; rewrite ?Nat2N.inj_succ, ?N.pow_succ_r'; try lia. }
  eapply N.lt_le_trans; [exact H|]. etransitivity; [apply (N.pow_le_mono_l 2 10); lia|].
  apply N.pow_le_mono_r; lia.
Qed.

Lemma dec_text_gnat n r : ~ starts_with_digit r -> gnat (dec_text n ++ r) n r.
Proof.
  intros Hr. unfold dec_text. destruct (dec_loop_ok (S (N.size_nat n)) n [] (size_bound n) ltac:(lia)) as (d & ds & -> & Hd & Hdig & Hz).
  rewrite app_nil_r. inversion Hdig as [|x y H1 H2]; subst.
  destruct (beqb_spec d x30) as [->|Hne].
  - destruct (Hz eq_refl) as [H0 ->]. rewrite H0. apply (GN_zero r).
  - cbn [app]. now constructor.
Qed.

Lemma dec_text_digits n : Forall digit (dec_text n).
Proof.
  unfold dec_text. destruct (dec_loop_ok (S (N.size_nat n)) n [] (size_bound n) ltac:(lia)) as (d & ds & -> & Hd & Hdig & Hz).
  now rewrite app_nil_r.
Qed.

Lemma int_text_gval lits z r : ~ starts_with_digit r -> gval lits (int_text z ++ r) (AInt z) r.
Proof.
  intros Hr. unfold int_text. destruct (Z.ltb_spec z 0) as [Hz|Hz].
  - pose proof (G_neg lits [] _ _ r (Forall_nil _) (dec_text_gnat (Z.to_N (- z)) r Hr)) as H.
    rewrite Z2N.id in H by lia. rewrite Z.opp_involutive in H. exact H.
  - pose proof (G_nat lits [] _ _ r (Forall_nil _) (dec_text_gnat (Z.to_N z) r Hr)) as H.
    rewrite Z2N.id in H by lia. exact H.
Qed.

(** ------------------------------------------------------------------ simple values *)

Fixpoint ast_of (v : jvalue) : ast :=
  match v with
  | JInt z => AInt z
  | JBool b => ABool b
  | JStr s => AStr s
  | JArr l => AArr (map ast_of l)
  | _ => AArr []
  end.

Lemma reduce256_small z : (Z.abs z < 2^256)%Z -> reduce256 z = z.
Proof. intros H. unfold reduce256. rewrite Z.mod_small by lia. rewrite Z.mul_comm. apply Z.abs_sgn. Qed.

Lemma build_ast_of v : simple v -> build (ast_of v) = Ret v.
Proof.
  induction 1 as [z Hz| | |l Hl IH]; cbn [ast_of build]; auto.
  - now rewrite reduce256_small.
  - assert (H : sequence (map build (map ast_of l)) = Ret l).
    { clear Hl. induction l as [|v l IHl]; cbn [map sequence]; auto. rewrite IH by (now left). cbn [bind].
      rewrite IHl; [reflexivity|]. intros x Hx. apply IH. now right. }
    now rewrite H.
Qed.

Lemma nsd_char c q : ~ digit c -> ~ starts_with_digit (c :: q).
Proof. intros Hc (d & s' & H & Hd). congruence. Qed.

Lemma print_simple lits v : (forall b, lits b = true) -> simple v ->
  exists t, print v = Ret t /\ forall r, ~ starts_with_digit r -> gval lits (t ++ r) (ast_of v) r.
Proof.
  intros HL. assert (N1 : ~ digit x2c) by (unfold digit; cbn; lia). assert (N2 : ~ digit x5d) by (unfold digit; cbn; lia).
  induction 1 as [z Hz|b|s|l Hl IH]; cbn [print ast_of].
  - eexists. split; [reflexivity|]. intros r. apply int_text_gval.
  - eexists. split; [reflexivity|]. intros r _. pose proof (G_bool lits [] b r (Forall_nil _) (HL b)) as H. destruct b; exact H.
  - eexists. split; [reflexivity|]. intros r _. pose proof (G_str lits [] _ _ r (Forall_nil _) (print_str_gchars s r)) as H.
    cbn [app] in H. replace ((x22 :: flat_map print_char s ++ [x22]) ++ r) with (x22 :: flat_map print_char s ++ x22 :: r); auto.
    cbn. now rewrite <- app_assoc.
  - assert (H : exists ts, sequence (map print l) = Ret ts /\ forall r, l <> [] -> gelems lits (commas ts ++ x5d :: r) (map ast_of l) r).
    { clear Hl. induction l as [|v l IHl].
      - exists []. split; auto. intros r Hn. congruence.
      - destruct (IH v (or_introl eq_refl)) as (t & Ht & Hg). destruct IHl as (ts & Hts & Hge). { intros x Hx. apply IH. now right. }
        exists (t :: ts). cbn [map sequence]. rewrite Ht. cbn [bind]. rewrite Hts. split; [reflexivity|]. intros r _.
        destruct l as [|v' l].
        + cbn in Hts. injection Hts as <-. cbn [commas map]. apply (GE_last lits _ _ [] r); [|constructor]. apply Hg. now apply nsd_char.
        + destruct ts as [|t' ts]. { exfalso. cbn [map sequence] in Hts. apply bind_ret in Hts as (? & _ & Hts). apply bind_ret in Hts as (? & _ & Hts). discriminate. }
          change (commas (t :: t' :: ts)) with (t ++ x2c :: commas (t' :: ts)).
          rewrite <- app_assoc. apply (GE_cons lits _ _ [] (commas (t' :: ts) ++ x5d :: r)); [|constructor|].
          * apply Hg. now apply nsd_char.
          * apply Hge. discriminate. }
    destruct H as (ts & Hts & Hg). rewrite Hts. cbn [bind]. eexists. split; [reflexivity|]. intros r _.
    replace ((x5b :: commas ts ++ [x5d]) ++ r) with (x5b :: commas ts ++ x5d :: r) by (cbn; now rewrite <- app_assoc).
    destruct l as [|v l].
    + cbn in Hts. injection Hts as <-. apply (G_arr0 lits [] [] r); constructor.
    + apply (G_arr lits [] _ _ r); [constructor|]. apply Hg. discriminate.
Qed.

Lemma nsd_nil : ~ starts_with_digit [].
Proof. intros (d & s' & H & _). discriminate. Qed.

Lemma print_simple_parse lay v : good_layout lay -> simple v ->
  exists t, print v = Ret t /\ gval documented t (ast_of v) [] /\ ((N.of_nat (length t) < 2^28)%N -> parse lay t = Ret (true, v)).
Proof.
  intros Hlay Hv. destruct (print_simple documented v (fun _ => eq_refl) Hv) as (t & Ht & Hg).
  exists t. splits; auto.
  - specialize (Hg [] nsd_nil). now rewrite app_nil_r in Hg.
  - intros Hlen. specialize (Hg [] nsd_nil). rewrite app_nil_r in Hg.
    destruct (parse_good lay t Hlen Hlay) as [(a & r & v' & H1 & H2 & H3 & H4)|(H1 & _)].
    + destruct (gval_det _ _ _ _ _ _ Hg H1) as [<- _]. rewrite build_ast_of in H2 by auto. congruence.
    + exfalso. eapply H1; eauto.
Qed.

Lemma parse_exact lay s a r v : (N.of_nat (length s) < 2^28)%N -> gval (layout_lits lay) s a r -> build a = Ret v ->
  parse lay s = Ret (true, v).
Proof.
  intros Hs Hg Hb. destruct (parse_ok lay s Hs) as [(a' & r' & v' & H1 & H2 & H3 & H4)|(H1 & _)].
  - destruct (gval_det _ _ _ _ _ _ Hg H1) as [<- _]. congruence.
  - exfalso. eapply H1; eauto.
Qed.

Lemma print_str_parse lay s : (N.of_nat (length s) < 2^24)%N ->
  exists t, print (JStr s) = Ret t /\ parse lay t = Ret (true, JStr s).
Proof.
  intros Hs. eexists. split; [reflexivity|].
  apply (parse_exact lay _ (AStr s) []); auto.
  - assert (Hl : length (flat_map print_char s) <= 6 * length s).
    { clear Hs. induction s as [|c s IH]; cbn [flat_map length]; auto. rewrite app_length.
      destruct (print_char_cases c) as [(-> & _)|[(-> & _)|(-> & _)]]; cbn [length]; lia. }
    cbn [length]. rewrite app_length. cbn [length]. change (2^24)%N with 16777216%N in Hs. change (2^28)%N with 268435456%N. lia.
  - pose proof (G_str (layout_lits lay) [] _ _ [] (Forall_nil _) (print_str_gchars s [])) as H. exact H.
Qed.

(** ------------------------------------------------------------------ printing is total *)

Lemma tmap_ents {E E'} (f : E -> E') (t : table E) : tents (tmap f t) = map f (tents t).
Proof.
  unfold tents, tmap. cbn [tbl]. destruct (tbl t) as [bs|]; auto.
  induction bs as [|[h s] bs IH]; cbn [map]; auto. rewrite !ents_cons. rewrite map_app. cbn [bslot]. rewrite IH. f_equal. now destruct s.
Qed.

Lemma tmap_CInv {E E'} (f : E -> E') (t : table E) : CInv t -> CInv (tmap f t).
Proof.
  intros HC. pose proof (tmap_ents f t) as He. unfold CInv, tents, tmap in *. cbn [tbl nB nE nT] in *. destruct (tbl t) as [bs|]; auto.
  destruct HC as [[H1 H2 H3 H4 H5] HC].
  set (g := fun b => mkB (bhash b) (match bslot b with Empty => Empty | Tomb => Tomb | Full e => Full (f e) end)) in *.
  assert (Ht : tombs (map g bs) = tombs bs).
  { clear. induction bs as [|[h s] bs IH]; cbn [map]; auto. rewrite !tombs_cons, IH. f_equal. destruct s; reflexivity. }
  assert (Hm : empties (map g bs) = empties bs).
  { clear. induction bs as [|[h s] bs IH]; cbn [map]; auto. rewrite !empties_cons, IH. f_equal. destruct s; reflexivity. }
  split; [|now rewrite Hm]. constructor; cbn [nB nE nT]; rewrite ?Ht, ?Hm, ?map_length, ?He, ?map_length; auto.
Qed.

Lemma sequence_all {A B} (f : A -> outcome B) l : (forall x, In x l -> exists y, f x = Ret y) -> exists ys, sequence (map f l) = Ret ys.
Proof.
  induction l as [|a l IH]; intros H; [exists []; reflexivity|].
  destruct (H a (or_introl eq_refl)) as (y & Hy). destruct IH as (ys & Hys). { intros x Hx. apply H. now right. }
  exists (y :: ys). cbn [map sequence]. rewrite Hy. cbn [bind]. now rewrite Hys.
Qed.

Lemma print_obj (t : table (bytes * jvalue)) : CInv t ->
  print (JObj t) = (ts <- sequence (map (fun e : bytes * jvalue => p <- print (snd e) ;; Ret (fst e ++ x3a :: p)) (tents t)) ;;
                    Ret (x7b :: x0a :: commas ts ++ [x0a; x7d])).
Proof.
  intros HC. cbn [print]. rewrite traverse_ok.
  - cbn [bind]. rewrite tmap_ents, map_map. reflexivity.
  - now apply tmap_CInv.
  - cbn [tmap nE]. lia.
Qed.

Lemma print_total v : wfj v -> exists t, print v = Ret t.
Proof.
  induction 1 as [| | | |l Hl IH|t HC Hb Hk Hw IH]; try (cbn; eauto; fail).
  - cbn [print]. destruct (sequence_all print l IH) as (ts & ->). cbn. eauto.
  - rewrite print_obj by auto.
    destruct (sequence_all (fun e : bytes * jvalue => p <- print (snd e) ;; Ret (fst e ++ x3a :: p)) (tents t)) as (ts & ->).
    + intros e He. cbv beta. destruct (IH e He) as (p & ->). cbn. eauto.
    + cbn. eauto.
Qed.

(** ------------------------------------------------------------------ no NUL *)

Lemma iterate_in {E} (t : table E) f : forall it es e, iterate f t it = Ret es -> In e es -> In e (tents t).
Proof.
  induction f as [|f IH]; intros it es e H Hin; destruct it as [i|]; cbn [iterate] in H.
  - discriminate.
  - injection H as <-. destruct Hin.
  - apply bind_ret in H as (e0 & H0 & H). apply bind_ret in H as (it' & H1 & H). apply bind_ret in H as (l & H2 & H). injection H as <-.
    destruct Hin as [<-|Hin]; [|eauto].
    unfold deref in H0. unfold tents. destruct (tbl t) as [bs|]; [|discriminate].
    destruct (nth_error bs i) as [b|] eqn:Ei; [|discriminate]. destruct (bslot b) eqn:Eb; try discriminate. injection H0 as <-.
    apply in_ents. eauto.
  - injection H as <-. destruct Hin.
Qed.

Lemma traverse_in {E} (t : table E) f es e : traverse f t = Ret es -> In e es -> In e (tents t).
Proof. unfold traverse. intros H. apply bind_ret in H as (it & _ & H). eapply iterate_in; eauto. Qed.

Lemma commas_in ts c : In c (commas ts) -> c = x2c \/ exists t, In t ts /\ In c t.
Proof.
  induction ts as [|t ts IH]; cbn [commas]; [intros []|]. destruct ts as [|t' ts].
  - intros H. right. exists t. cbn. auto.
  - intros H. apply in_app_or in H as [H|[<-|H]].
    + right. exists t. cbn. auto.
    + auto.
    + destruct (IH H) as [->|(u & Hu & Hc)]; auto. right. exists u. cbn in *. auto.
Qed.

Lemma print_nonul v : all_keys (fun k => ~ In NUL k) v -> forall t, print v = Ret t -> ~ In NUL t.
Proof.
  assert (Hdig : forall n, ~ In NUL (dec_text n)).
  { intros n H. pose proof (dec_text_digits n) as HF. rewrite Forall_forall in HF. apply HF in H. destruct H as [H _]. vm_compute in H. congruence. }
  induction 1 as [| | | |l Hl IH|t Hk _ IH]; intros tx Ht; cbn [print] in Ht.
  - injection Ht as <-. intros [].
  - injection Ht as <-. unfold int_text. destruct (z <? 0)%Z; [|apply Hdig]. intros [H|H]; [discriminate|]. now apply Hdig in H.
  - injection Ht as <-. destruct b; cbn; intros H; repeat (destruct H as [H|H]; [discriminate|]); exact H.
  - injection Ht as <-. intros [H|H]; [discriminate|]. apply in_app_or in H as [H|[H|[]]]; [|discriminate].
    apply in_flat_map in H as (c & _ & H). now apply print_char_nonul in H.
  - apply bind_ret in Ht as (ts & Hts & Ht). injection Ht as <-. apply sequence_map in Hts.
    intros [H|H]; [discriminate|]. apply in_app_or in H as [H|[H|[]]]; [|discriminate].
    apply commas_in in H as [H|(u & Hu & H)]; [discriminate|].
    apply In_nth_error in Hu as (i & Hu). clear Hl.
    revert i Hu. induction Hts as [|v u' l ts Hv Hts IHts]; intros i Hu; [destruct i; discriminate|].
    destruct i as [|i]; cbn in Hu.
    + injection Hu as ->. eapply IH; [left; reflexivity|exact Hv|exact H].
    + eapply IHts; eauto. intros x Hx. apply IH. now right.
  - apply bind_ret in Ht as (es & Hes & Ht). apply bind_ret in Ht as (ts & Hts & Ht). injection Ht as <-.
    apply sequence_map in Hts. intros [H|[H|H]]; try discriminate.
    apply in_app_or in H as [H|[H|[H|[]]]]; try discriminate.
    apply commas_in in H as [H|(u & Hu & H)]; [discriminate|].
    assert (Hu' : exists e, In e es /\ (p <- snd e ;; Ret (fst e ++ x3a :: p)) = Ret u).
    { clear -Hts Hu. induction Hts as [|e u' es ts He Hts IH]; [destruct Hu|]. destruct Hu as [->|Hu].
      - exists e. cbn. auto.
      - destruct (IH Hu) as (e' & H1 & H2). exists e'. cbn. auto. }
    destruct Hu' as (e & Hin & He). apply (traverse_in _ _ _ _ Hes) in Hin.
    rewrite tmap_ents in Hin. apply in_map_iff in Hin as (e0 & <- & Hin). cbn [fst snd] in He.
    apply bind_ret in He as (p & Hp & He). injection He as <-.
    unfold tents in Hin. destruct (tbl t) as [bs|] eqn:Eb; [|destruct Hin].
    apply in_ents in Hin as (i & b & Hi & Hb). apply nth_error_In in Hi. destruct e0 as [k v]. cbn [fst snd] in *.
    apply in_app_or in H as [H|[H|H]]; try discriminate.
    + exact (Hk bs b k v eq_refl Hi Hb H).
    + eapply (IH bs b k v eq_refl Hi Hb); eauto.
Qed.

(** ------------------------------------------------------------------ printed objects *)

Lemma drop_ws_char k q c t : drop_ws (k ++ x3a :: q) = c :: t -> In c k \/ c = x3a.
Proof.
  induction k as [|d k IH]; cbn [app drop_ws].
  - cbn. intros H. injection H as <- _. auto.
  - destruct (wsb d); intros H.
    + destruct (IH H); cbn; auto.
    + injection H as <- _. cbn. auto.
Qed.

Lemma print_obj_parse lay t tx : wfj (JObj t) -> (0 < nE t)%N -> (forall e, In e (tents t) -> ~ In x22 (fst e)) ->
  print (JObj t) = Ret tx -> (N.of_nat (length tx) < 2^28)%N ->
  parse lay tx = Ret (false, JUndef) \/ parse lay tx = Ret (true, new_object).
Proof.
  intros Hw Hn Hq Hp Hl. inversion Hw as [| | | | |t' HC Hb Hk Hv]; subst.
  rewrite print_obj in Hp by auto. apply bind_ret in Hp as (ts & Hts & Hp). injection Hp as <-.
  rewrite (CInv_card _ HC) in Hn. destruct (tents t) as [|[k v] es]; [cbn in Hn; lia|].
  cbn [map sequence] in Hts. apply bind_ret in Hts as (t1 & Ht1 & Hts). apply bind_ret in Hts as (ts' & _ & Hts). injection Hts as <-.
  apply bind_ret in Ht1 as (p & _ & Ht1). cbn [fst snd] in Ht1. injection Ht1 as <-.
  assert (Hc : exists q, commas ((k ++ x3a :: p) :: ts') ++ [x0a; x7d] = k ++ x3a :: q).
  { cbn [commas]. destruct ts'; rewrite <- !app_assoc; cbn [app]; eauto. }
  destruct Hc as (q & Hc). rewrite Hc in *.
  destruct (parse_ok lay _ Hl) as [(a & r & v' & H1 & H2 & H3 & H4)|(H1 & H2)]; [right|left; auto].
  rewrite H4. do 2 f_equal. apply gval_core in H1. cbn [drop_ws wsb] in H1. change (wsb x7b) with false in H1. cbn [core] in H1.
  change (beqb x7b x7b) with true in H1. cbv iota in H1.
  destruct H1 as [(s' & Hd & -> & ->)|(ms & -> & H1)].
  - cbn in H2. injection H2 as <-. reflexivity.
  - exfalso. apply gmembers_shape in H1 as (k' & s0 & a & s1 & l' & Hk' & _). apply gkey_shape in Hk' as (s2 & s3 & Hd & _).
    change (drop_ws (x0a :: k ++ x3a :: q)) with (drop_ws (k ++ x3a :: q)) in Hd.
    apply drop_ws_char in Hd as [Hd|Hd]; [|discriminate]. apply (Hq (k, v)); cbn; auto.
Qed.

(** Proofs for C96. *)
From Verif Require Import Base HashModel HashProof HashProof2 StringMapModel JsonSpec JsonModel JsonDenotes JsonProof2 JsonProof4 JsonProof5
  JsonDepthSpec JsonDepthModel JsonPathProof JsonStackSpec JsonStackModel.
From Coq Require Import List Arith NArith ZArith Bool Lia.
From Coq.Init Require Import Byte.
Import ListNotations.
Local Open Scope nat_scope.

Notation maximum := (fold_right Nat.max 0).

(** ** Levels of a value *)
Fixpoint vlev (v : jvalue) : nat :=
  match v with
  | JArr l => S (maximum (map vlev l))
  | JObj t => S (maximum (tents (tmap (fun e => vlev (snd e)) t)))
  | _ => 1
  end.
Fixpoint blev (v : jvalue) : nat :=
  match v with
  | JObj t => S (maximum (tents (tmap (fun e => blev (snd e)) t)))
  | _ => 1
  end.
Lemma vlev_obj t : vlev (JObj t) = S (maximum (map (fun e => vlev (snd e)) (tents t))).
Proof. cbn [vlev]. now rewrite tmap_ents. Qed.
Lemma blev_obj t : blev (JObj t) = S (maximum (map (fun e => blev (snd e)) (tents t))).
Proof. cbn [blev]. now rewrite tmap_ents. Qed.

Lemma seq_lev {A B} (F G : A -> outcome B) lev room l :
  (forall x, In x l -> F x = if lev x <=? room then G x else Diverge) -> (forall x, In x l -> exists y, G x = Ret y) ->
  sequence (map F l) = if maximum (map lev l) <=? room then sequence (map G l) else Diverge.
Proof.
  induction l as [|a l IH]; intros HF HG; [reflexivity|]. cbn [map fold_right sequence].
  rewrite (HF a) by (now left). rewrite IH by (intros; (apply HF || apply HG); now right).
  destruct (HG a (or_introl eq_refl)) as (y & ->).
  destruct (Nat.leb_spec (lev a) room), (Nat.leb_spec (maximum (map lev l)) room), (Nat.leb_spec (Nat.max (lev a) (maximum (map lev l))) room);
    try lia; reflexivity.
Qed.

Lemma print_in_exact v : wfj v -> forall room, print_in room v = if vlev v <=? room then print v else Diverge.
Proof.
  induction 1 as [| | | |l Hl IH|t HC Hb Hk Hv IH]; intros [|room]; try reflexivity.
  - cbn [print_in vlev]. rewrite (seq_lev (print_in room) print vlev room l); [|intros; now apply IH|intros; now apply print_total; apply Hl].
    change (S (maximum (map vlev l)) <=? S room) with (maximum (map vlev l) <=? room).
    destruct (maximum (map vlev l) <=? room); reflexivity.
  - rewrite vlev_obj, print_obj by auto. cbn [print_in]. rewrite traverse_ok by (auto; lia). cbn [bind].
    rewrite (seq_lev _ (fun e : bytes * jvalue => p <- print (snd e) ;; Ret (fst e ++ x3a :: p)) (fun e => vlev (snd e)) room (tents t)).
    + cbn [Nat.leb]. destruct (_ <=? room); reflexivity.
    + intros e He. cbv beta. rewrite IH by auto. destruct (vlev (snd e) <=? room); reflexivity.
    + intros e He. destruct (print_total (snd e) (Hv e He)) as (y & ->). cbn. eauto.
Qed.

Lemma seq_ret {A B} (G : A -> B) l : sequence (map (fun x => Ret (G x)) l) = Ret (map G l).
Proof. induction l as [|a l IH]; [reflexivity|]. cbn [map sequence bind]. now rewrite IH. Qed.

Section Buckets.
  Context {B : Type} (lev : bytes * jvalue -> nat) 
          (F' : bucket (bytes * jvalue) -> outcome B) (G' : bucket (bytes * jvalue) -> B) (room : nat).
  Hypothesis HE : forall b, (forall e, bslot b <> Full e) -> F' b = Ret (G' b).
  (** the buckets of a table in order: only the full ones need room *)
  Lemma seq_buckets bs :
    (forall b e, In b bs -> bslot b = Full e -> F' b = if lev e <=? room then Ret (G' b) else Diverge) ->
    sequence (map F' bs) = if maximum (map lev (ents bs)) <=? room then Ret (map G' bs) else Diverge.
  Proof.
    induction bs as [|b bs IH]; intros H; [reflexivity|]. rewrite ents_cons. cbn [map sequence].
    rewrite IH by (intros; apply H; auto; now right).
    destruct (bslot b) as [| |e] eqn:Eb.
    1,2: rewrite HE by (intros e; rewrite Eb; discriminate); cbn [bind slot_ents app map]; destruct (_ <=? room); reflexivity.
    rewrite (H b e) by (auto; now left). cbn [slot_ents app map fold_right].
    destruct (Nat.leb_spec (lev e) room), (Nat.leb_spec (maximum (map lev (ents bs))) room),
      (Nat.leb_spec (Nat.max (lev e) (maximum (map lev (ents bs)))) room); try lia; reflexivity.
  Qed.
End Buckets.

Lemma ents_in (bs : list (bucket (bytes * jvalue))) b e : In b bs -> bslot b = Full e -> In e (ents bs).
Proof.
  induction bs as [|b' bs IH]; [intros []|]. intros [->|H] Hs; rewrite ents_cons; apply in_app_iff.
  - left. rewrite Hs. now left.
  - right. auto.
Qed.

Lemma no_entries (t : table (bytes * jvalue)) : CInv t -> nE t = 0%N -> tents t = [].
Proof. intros HC H0. apply CInv_card in HC. destruct (tents t); [auto|]. cbn in HC. lia. Qed.

Lemma copy_in_exact v : wfj v -> forall room, copy_in room v = if vlev v <=? room then Ret v else Diverge.
Proof.
  induction 1 as [| | | |l Hl IH|t HC Hb Hk Hv IH]; intros [|room]; try reflexivity.
  - cbn [copy_in vlev]. rewrite (seq_lev (copy_in room) Ret vlev room l); [|intros; now apply IH|eauto].
    change (S (maximum (map vlev l)) <=? S room) with (maximum (map vlev l) <=? room).
    destruct (maximum (map vlev l) <=? room); [|reflexivity]. pose proof (seq_ret (fun x : jvalue => x) l) as H. cbv beta in H.
    change (map (fun x : jvalue => Ret x) l) with (map Ret l) in H. rewrite H, map_id. reflexivity.
  - rewrite vlev_obj. cbn [copy_in]. destruct (tbl t) as [bs|] eqn:Et; [|easy].
    destruct (N.eqb_spec (nE t) 0) as [E0|E0]. { rewrite no_entries by auto. reflexivity. }
    assert (Hts : tents t = ents bs) by (unfold tents; now rewrite Et). rewrite Hts in *.
    rewrite (seq_buckets (fun e => vlev (snd e)) _ (fun b => b) room).
    + cbn [Nat.leb]. destruct (_ <=? room); [|reflexivity]. cbn [bind]. rewrite map_id, <- Et. now destruct t.
    + intros b Hn. destruct (bslot b) as [| |e]; auto. now destruct (Hn e).
    + intros b e Hin Hs. rewrite Hs. pose proof (ents_in bs b e Hin Hs) as He. rewrite IH by auto.
      destruct (_ <=? room); [|reflexivity]. cbn [bind]. rewrite stored_key_kshort by (apply Hk; now rewrite Hts).
      destruct b as [h s], e. cbn in *. now subst s.
Qed.

Lemma destroy_in_exact v : wfj v -> forall room, destroy_in room v = if blev v <=? room then Ret tt else Diverge.
Proof.
  induction 1 as [| | | |l Hl IH|t HC Hb Hk Hv IH]; intros [|room]; try reflexivity.
  rewrite blev_obj. cbn [destroy_in]. destruct (tbl t) as [bs|] eqn:Et; [|easy].
  destruct (N.eqb_spec (nE t) 0) as [E0|E0]. { rewrite no_entries by auto. reflexivity. }
  assert (Hts : tents t = ents bs) by (unfold tents; now rewrite Et). rewrite Hts in *.
  rewrite (seq_buckets (fun e => blev (snd e)) _ (fun _ => tt) room).
  - cbn [Nat.leb]. destruct (_ <=? room); reflexivity.
  - intros b Hn. destruct (bslot b) as [| |e]; auto. now destruct (Hn e).
  - intros b e Hin Hs. rewrite Hs. pose proof (ents_in bs b e Hin Hs) as He. now rewrite IH.
Qed.

(** ** Levels of a value and of its text *)
Lemma max_le l n : maximum l <= n <-> forall x, In x l -> x <= n.
Proof.
  induction l as [|a l IH]; cbn; [split; [intros _ x []|lia]|]. split.
  - intros H x [->|Hx]; [lia|]. apply IH; auto. lia.
  - intros H. assert (maximum l <= n) by (apply IH; auto). specialize (H a (or_introl eq_refl)). lia.
Qed.
Lemma max_in l x : In x l -> x <= maximum l.
Proof. now apply max_le. Qed.

Lemma conj_in {A} (P : A -> Prop) l : fold_right (fun x p => P x /\ p) True l -> forall x, In x l -> P x.
Proof. induction l as [|a l IH]; cbn; [easy|]. intros [H1 H2] x [->|Hx]; auto. Qed.

(** the members of a parsed object *)
Lemma obj_members t ms : CInv t -> denotes (JObj t) (AObj ms) ->
  (forall e, In e (tents t) -> exists a, In (fst e, a) ms /\ denotes (snd e) a) /\
  (NoDup (map fst ms) -> forall k a, In (k, a) ms -> exists v, In (k, v) (tents t) /\ denotes v a).
Proof.
  intros HC Hd. inversion Hd as [| | | |t' ms' HE Hsome Hnone (es & Hes & Hnd & Hin)]; subst.
  rewrite traverse_ok in Hes by (auto; lia). injection Hes as <-. split.
  - intros [k v] He. cbn [fst snd]. apply Hin in He. destruct (last_binding k ms) as [a|] eqn:El.
    + destruct (Hsome k a El) as (v' & Hv & Hda). rewrite He in Hv. injection Hv as <-. exists a. split; auto. now apply last_binding_in.
    + rewrite (Hnone k El) in He. discriminate.
  - intros Hn k a Hka. apply binding_iff in Hka; auto. destruct (Hsome k a Hka) as (v & Hv & Hda). exists v. split; auto. now apply Hin.
Qed.

Lemma levels_of v : wfj v -> forall a, denotes v a ->
  (vlev v <= levels a /\ blev v <= object_levels a) /\ (no_repeats a -> vlev v = levels a /\ blev v = object_levels a).
Proof.
  induction 1 as [| | | |l Hl IH|t HC Hb Hk Hv IH]; intros a Hd.
  1-4: inversion Hd; subst; cbn; auto.
  - inversion Hd as [| | |vs l' HF|]; subst. cbn [vlev levels blev object_levels no_repeats].
    assert (HH : maximum (map vlev l) <= maximum (map levels l') /\
                 (fold_right (fun x p => no_repeats x /\ p) True l' -> maximum (map vlev l) = maximum (map levels l'))).
    { clear Hd Hl. induction HF as [|v a l l' Hva HF IHF]; [auto|]. cbn [map fold_right].
      destruct (IH v (or_introl eq_refl) a Hva) as [[H1 _] H2]. destruct IHF as [H3 H4]. { intros; apply IH; auto. now right. }
      split; [lia|]. intros [Hx Hy]. destruct (H2 Hx) as [-> _]. now rewrite (H4 Hy). }
    destruct HH as [H1 H2]. repeat split; try lia; rewrite H2; auto.
  - inversion Hd as [| | | |t' ms HE H1 H2 H3]; subst. destruct (obj_members t ms HC Hd) as [Hin Hex].
    rewrite vlev_obj, blev_obj. cbn [levels object_levels no_repeats]. split; [split|].
    + apply le_n_S, max_le. intros x Hx. apply in_map_iff in Hx as (e & <- & He). destruct (Hin e He) as (b & Hb1 & Hb2).
      destruct (IH e He b Hb2) as [[Hle _] _]. etransitivity; [apply Hle|]. apply max_in, in_map_iff. now exists (fst e, b).
    + apply le_n_S, max_le. intros x Hx. apply in_map_iff in Hx as (e & <- & He). destruct (Hin e He) as (b & Hb1 & Hb2).
      destruct (IH e He b Hb2) as [[_ Hle] _]. etransitivity; [apply Hle|]. apply max_in, in_map_iff. now exists (fst e, b).
    + intros [Hnd Hall]. pose proof (conj_in (fun m : bytes * ast => no_repeats (snd m)) ms Hall) as Hnr.
      split; f_equal; apply Nat.le_antisymm; apply max_le; intros x Hx; apply in_map_iff in Hx as (e & <- & He).
      1,3: destruct (Hin e He) as (b & Hb1 & Hb2); destruct (IH e He b Hb2) as [[? ?] _];
        (etransitivity; [eassumption|]); apply max_in, in_map_iff; now exists (fst e, b).
      all: destruct e as [k b]; destruct (Hex Hnd k b He) as (v & Hv1 & Hv2); destruct (IH (k, v) Hv1 b Hv2) as [_ Heq];
        destruct (Heq (Hnr (k, b) He)) as [E1 E2]; cbn [snd] in *; rewrite <- ?E1, <- ?E2; apply max_in, in_map_iff; now exists (k, v).
Qed.

(** ** Parsed values *)
Lemma parsed lay s a r : (N.of_nat (length s) < 2^28)%N -> gval (readable lay) s a r -> short_keys a ->
  exists v, parse lay s = Ret (true, v) /\ wfj v /\ denotes v a.
Proof.
  intros Hs Hg Hk. destruct (parse_ok lay s Hs) as [(a' & r' & v & H1 & H2 & H3 & H4)|(H1 & H2)].
  - exists v. split; [|split]; auto. destruct (parse_exactly lay s Hs) as (ok & v' & E1 & E2 & E3). rewrite H4 in E1. injection E1 as <- <-. eauto.
  - now destruct (H1 a r).
Qed.

Lemma stack_enough lay s a r : (N.of_nat (length s) < 2^28)%N -> gval (readable lay) s a r -> short_keys a ->
  exists v, parse lay s = Ret (true, v) /\
    (forall room, levels a <= room -> print_in room v = print v /\ copy_in room v = Ret v) /\
    (forall room, object_levels a <= room -> destroy_in room v = Ret tt) /\
    (no_repeats a -> forall room,
       (room < levels a -> print_in room v = Diverge /\ copy_in room v = Diverge) /\
       (room < object_levels a -> destroy_in room v = Diverge)).
Proof.
  intros Hs Hg Hk. destruct (parsed lay s a r Hs Hg Hk) as (v & Hp & Hw & Hd). exists v. split; auto.
  destruct (levels_of v Hw a Hd) as [[H1 H2] H3]. split; [|split].
  - intros room Hr. rewrite print_in_exact, copy_in_exact by auto. assert (Hl : vlev v <= room) by lia. apply Nat.leb_le in Hl. now rewrite Hl.
  - intros room Hr. rewrite destroy_in_exact by auto. assert (Hl : blev v <= room) by lia. apply Nat.leb_le in Hl. now rewrite Hl.
  - intros Hn room. destruct (H3 Hn) as [E1 E2]. split; intros Hr.
    + rewrite print_in_exact, copy_in_exact by auto. rewrite E1. apply Nat.leb_gt in Hr. now rewrite Hr.
    + rewrite destroy_in_exact by auto. rewrite E2. apply Nat.leb_gt in Hr. now rewrite Hr.
Qed.

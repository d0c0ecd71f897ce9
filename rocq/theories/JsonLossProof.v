(** How much storage a parse loses: the nested arrays. *)
From Verif Require Import Base JsonModel JsonSpec ValueSpec ValueProof7 ValueProof8 JsonHeapSpec JsonHeapProof3 JsonHeapProof4 JsonDepthSpec JsonDepthProof.
From Coq Require Import List NArith ZArith Bool Lia Arith.
From Coq.Init Require Import Byte.
Import ListNotations.

Definition tower (d : nat) : ast := Nat.iter d (fun a => AArr [a]) (AArr []).

Lemma tower_blocks d : blocks (denote (tower d)) = S d.
Proof. induction d as [|d IH]; [reflexivity|]. change (S (list_sum [blocks (denote (tower d))]) = S (S d)). rewrite IH. cbn. lia. Qed.
Lemma tower_waste d : waste (denote (tower d)) = d.
Proof.
  destruct d as [|d]; [reflexivity|]. change (waste (TArr [denote (tower d)]) = S d). rewrite waste_arr. cbn [map list_sum fold_right]. rewrite tower_blocks. lia.
Qed.
Lemma tower_own d : 2 * own (tower d) = 3 * d * S d.
Proof.
  induction d as [|d IH]; [reflexivity|]. assert (E : own (tower (S d)) = own (tower d) + 3 * waste (denote (tower (S d)))). { change (list_sum [own (tower d)] + 3 * waste (denote (tower (S d))) = own (tower d) + 3 * waste (denote (tower (S d)))). cbn [list_sum fold_right]. lia. }
  rewrite tower_waste in E. nia.
Qed.
Lemma tower_grammar lits d : gval lits (nest (S d)) (tower d) [].
Proof. pose proof (nest_grammar lits d []) as H. rewrite app_nil_r in H. exact H. Qed.

Lemma nest_bytes n c : In c (nest n) -> c = x5b \/ c = x5d.
Proof. unfold nest. rewrite in_app_iff. intros [H|H]; apply repeat_spec in H; auto. Qed.
Lemma nest_short n : short_text (nest n).
Proof.
  intros pre t k r E H. exfalso. inversion H as [w s k' s1 w2 Hw Hc Hw2 E1]; subst.
  assert (Hin : In x22 (nest n)) by (rewrite E; apply in_app_iff; right; apply in_app_iff; right; now left).
  apply nest_bytes in Hin as [Hin|Hin]; discriminate.
Qed.

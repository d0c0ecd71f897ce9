(** The recursive descent for any callbacks. *)
From Verif Require Import Base JsonModel JsonSpec JsonProof JsonProof2 JsonHeapModel.
From Coq Require Import List NArith ZArith Bool Lia.
From Coq.Init Require Import Byte.
From Coq.Strings Require Import Byte.
Import ListNotations.

(** ** It is the parser of JsonModel.v *)
Definition jcmd (f : cbs -> outcome cbs) : cmd cbs unit :=
  fun c => match f c with
           | Ret c' => (c', Ret tt)
           | Throw e => (c, Throw e) | UB u => (c, UB u) | Diverge => (c, Diverge) | Exit n => (c, Exit n)
           end.
Definition K_json : callbacks cbs :=
  mkK (fun b => jcmd (fun c => on_boolean c b)) (fun z => jcmd (fun c => set_parent c (JInt z)))
      (fun s isKey => jcmd (fun c => on_string c s isKey))
      (jcmd (fun c => Ret (begin_array c))) (jcmd (fun c => Ret (begin_object c))) (jcmd end_container).

(** the same result, seen from outside *)
Definition agree {A B} (g : A -> cbs -> B) (x : cbs * outcome A) (y : outcome B) : Prop :=
  match snd x with
  | Ret a => y = Ret (g a (fst x))
  | Throw e => y = Throw e
  | UB u => y = UB u
  | Diverge => y = Diverge
  | Exit n => y = Exit n
  end.
Lemma agree_bind {A B A' B'} (g : A -> cbs -> B) (g' : A' -> cbs -> B') (m : cmd cbs A) k (n : outcome B) l c :
  agree g (m c) n -> (forall a c', agree g' (k a c') (l (g a c'))) -> agree g' (cbind m k c) (bind n l).
Proof.
  intros H Hk. unfold cbind. unfold agree in H. destruct (m c) as [c' r]. cbn [fst snd] in H. destruct r; subst n; cbn [bind]; try reflexivity. apply Hk.
Qed.
Lemma agree_lift {A A' B'} (g' : A' -> cbs -> B') (m : outcome A) k l c :
  (forall a, agree g' (k a c) (l a)) -> agree g' (cbind (lift m) k c) (bind m l).
Proof. intros Hk. unfold cbind, lift. destruct m; cbn [bind]; try reflexivity. apply Hk. Qed.
Lemma agree_op {A' B'} (g' : A' -> cbs -> B') f k l c :
  (forall c', agree g' (k tt c') (l c')) -> agree g' (cbind (jcmd f) k c) (bind (f c) l).
Proof. intros Hk. unfold cbind, jcmd. destruct (f c); cbn [bind]; try reflexivity. apply Hk. Qed.

Lemma agree_pure {A' B'} (g' : A' -> cbs -> B') f k y c :
  agree g' (k tt (f c)) y -> agree g' (cbind (jcmd (fun c => Ret (f c))) k c) y.
Proof. exact (fun H => H). Qed.

Definition gb (a : bool * bytes) (c : cbs) : step_result := (fst a, snd a, c).
Definition gs (a : bytes) (c : cbs) : bytes * cbs := (a, c).
Ltac agr := first [apply agree_lift; intros | apply agree_op; intros | reflexivity
  | match goal with a : (_ * _)%type |- _ => destruct a end
  | match goal with |- agree _ ((if ?b then _ else _) _) _ => destruct b end].
Lemma same_string isKey s c : agree gb (kparse_string K_json isKey s c) (parse_string isKey s c).
Proof. unfold kparse_string, parse_string. cbn [K_json k_string]. repeat agr. Qed.
Lemma same_boolean lay s c : agree gb (kparse_boolean K_json lay s c) (parse_boolean lay s c).
Proof. unfold kparse_boolean, parse_boolean. cbn [K_json k_boolean]. repeat agr. Qed.
Lemma same_number s c : agree gb (kparse_number K_json s c) (parse_number s c).
Proof. unfold kparse_number, parse_number. cbn [K_json k_number]. unfold on_number. repeat agr. Qed.
Section Same.
  Variable kpv : bytes -> cmd cbs bytes.
  Variable pv : bytes -> cbs -> outcome (bytes * cbs).
  Hypothesis Hpv : forall s c, agree gs (kpv s c) (pv s c).
  Lemma same_elems f : forall s c, agree gs (kelems_loop kpv f s c) (elems_loop pv f s c).
  Proof.
    induction f as [|f IH]; intros s c; cbn [kelems_loop elems_loop]; [reflexivity|].
    apply (agree_bind gs); [apply Hpv|]. intros a c'. cbn [gs]. repeat agr. apply IH.
  Qed.
  Lemma same_members f : forall s c, agree gs (kmembers_loop K_json kpv f s c) (members_loop pv f s c).
  Proof.
    induction f as [|f IH]; intros s c; cbn [kmembers_loop members_loop]; [reflexivity|].
    apply (agree_bind gb); [apply same_string|]. intros [[] a] c'; cbn [gb fst snd]; [|reflexivity].
    repeat agr. apply (agree_bind gs); [apply Hpv|]. intros a' c0. cbn [gs]. repeat agr. apply IH.
  Qed.
  Lemma same_array s c : agree gb (kparse_array K_json kpv s c) (parse_array pv s c).
  Proof.
    unfold kparse_array, parse_array. apply agree_lift. intros a. apply agree_lift. intros [[] t]; [|reflexivity].
    cbn [K_json k_begin_array]. cbv zeta. apply (agree_pure gb begin_array). generalize (begin_array c). intros c'.
    apply agree_lift. intros u. apply agree_lift. intros [[] w]; [repeat agr|].
    apply (agree_bind gs); [apply same_elems|]. intros x c0. cbn [gs]. repeat agr.
  Qed.
  Lemma same_object s c : agree gb (kparse_object K_json kpv s c) (parse_object pv s c).
  Proof.
    unfold kparse_object, parse_object. apply agree_lift. intros a. apply agree_lift. intros [[] t]; [|reflexivity].
    cbn [K_json k_begin_object]. cbv zeta. apply (agree_pure gb begin_object). generalize (begin_object c). intros c'.
    apply agree_lift. intros u. apply agree_lift. intros [[] w]; [repeat agr|].
    apply (agree_bind gs); [apply same_members|]. intros x c0. cbn [gs]. repeat agr.
  Qed.
End Same.
Lemma same_value lay f : forall s c, agree gs (kparse_value K_json lay f s c) (parse_value lay f s c).
Proof.
  induction f as [|f IH]; intros s c; cbn [kparse_value parse_value]; [reflexivity|].
  apply (agree_bind gb); [now apply same_object|]. intros [[] s1] c1; cbn [gb fst snd]; [reflexivity|].
  apply (agree_bind gb); [now apply same_array|]. intros [[] s2] c2; cbn [gb fst snd]; [reflexivity|].
  apply (agree_bind gb); [now apply same_string|]. intros [[] s3] c3; cbn [gb fst snd]; [reflexivity|].
  apply (agree_bind gb); [now apply same_boolean|]. intros [[] s4] c4; cbn [gb fst snd]; [reflexivity|].
  apply (agree_bind gb); [now apply same_number|]. intros [[] s5] c5; cbn [gb fst snd]; reflexivity.
Qed.
Theorem parser_same lay s :
  let (c, r) := kparse K_json lay s (mkC [] JUndef) in
  parse lay s = (ok <- r ;; Ret (ok, if ok : bool then root c else JUndef)).
Proof.
  unfold kparse, parse. pose proof (same_value lay (S (length s)) s (mkC [] JUndef)) as H. unfold agree, gs in H.
  destruct (kparse_value K_json lay (S (length s)) s (mkC [] JUndef)) as [c r]. cbn [fst snd] in H.
  destruct r as [a|e| | |]; rewrite H; try reflexivity. destruct e; reflexivity.
Qed.

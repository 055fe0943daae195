From Coq Require Import Lra Permutation.
From Verif Require Import Base BaseLemmas BaseR.
Local Open Scope R_scope.

Lemma Rleb_spec a b : reflect (a <= b) (Rleb a b).
Proof. unfold Rleb. destruct (Rle_dec a b); constructor; assumption. Qed.
Lemma Rltb_spec a b : reflect (a < b) (Rltb a b).
Proof. unfold Rltb. destruct (Rlt_dec a b); constructor; assumption. Qed.
Lemma Rleb_true a b : Rleb a b = true <-> a <= b.
Proof. destruct (Rleb_spec a b); split; intros; (reflexivity || assumption || discriminate || contradiction). Qed.
Lemma Rltb_true a b : Rltb a b = true <-> a < b.
Proof. destruct (Rltb_spec a b); split; intros; (reflexivity || assumption || discriminate || contradiction). Qed.
Lemma Rleb_false a b : Rleb a b = false <-> b < a.
Proof. destruct (Rleb_spec a b); split; intros; try discriminate; try lra; reflexivity. Qed.
Lemma Rltb_false a b : Rltb a b = false <-> b <= a.
Proof. destruct (Rltb_spec a b); split; intros; try discriminate; try lra; reflexivity. Qed.

Section Sums.
  Context {A : Type}.
  Implicit Types (f g : A -> R) (l : list A).

  Lemma Rsum_cons f a l : Rsum f (a :: l) = f a + Rsum f l. Proof. reflexivity. Qed.
  Lemma Rprod_cons f a l : Rprod f (a :: l) = f a * Rprod f l. Proof. reflexivity. Qed.

  Lemma Rsum_ext f g l : (forall i, In i l -> f i = g i) -> Rsum f l = Rsum g l.
  Proof.
    induction l as [|a l IH]; intros H; [reflexivity|]. rewrite !Rsum_cons, (H a (or_introl eq_refl)), IH; [reflexivity|].
    intros i Hi; apply H; right; exact Hi.
  Qed.
  Lemma Rprod_ext f g l : (forall i, In i l -> f i = g i) -> Rprod f l = Rprod g l.
  Proof.
    induction l as [|a l IH]; intros H; [reflexivity|]. rewrite !Rprod_cons, (H a (or_introl eq_refl)), IH; [reflexivity|].
    intros i Hi; apply H; right; exact Hi.
  Qed.
  Lemma Rsum_app f l1 l2 : Rsum f (l1 ++ l2) = Rsum f l1 + Rsum f l2.
  Proof. induction l1 as [|a l1 IH]; [simpl; lra|]. simpl app. rewrite !Rsum_cons, IH. lra. Qed.
  Lemma Rprod_app f l1 l2 : Rprod f (l1 ++ l2) = Rprod f l1 * Rprod f l2.
  Proof. induction l1 as [|a l1 IH]; [simpl; lra|]. simpl app. rewrite !Rprod_cons, IH. ring. Qed.
  Lemma Rsum_add f g l : Rsum (fun i => f i + g i) l = Rsum f l + Rsum g l.
  Proof. induction l as [|a l IH]; [simpl; lra|]. rewrite !Rsum_cons, IH. lra. Qed.
  Lemma Rsum_sub f g l : Rsum (fun i => f i - g i) l = Rsum f l - Rsum g l.
  Proof. induction l as [|a l IH]; [simpl; lra|]. rewrite !Rsum_cons, IH. lra. Qed.
  Lemma Rsum_scale k f l : Rsum (fun i => k * f i) l = k * Rsum f l.
  Proof. induction l as [|a l IH]; [simpl; lra|]. rewrite !Rsum_cons, IH. lra. Qed.
  Lemma Rsum_zero f l : (forall i, In i l -> f i = 0) -> Rsum f l = 0.
  Proof.
    induction l as [|a l IH]; intros H; [reflexivity|]. rewrite Rsum_cons, (H a (or_introl eq_refl)), IH; [lra|].
    intros i Hi; apply H; right; exact Hi.
  Qed.
  Lemma Rsum_const k l : Rsum (fun _ => k) l = INR (List.length l) * k.
  Proof. induction l as [|a l IH]; [simpl; lra|]. rewrite Rsum_cons, IH. simpl List.length. rewrite S_INR. lra. Qed.
  Lemma Rsum_nonneg f l : (forall i, In i l -> 0 <= f i) -> 0 <= Rsum f l.
  Proof.
    induction l as [|a l IH]; intros H; [simpl; lra|]. rewrite Rsum_cons.
    pose proof (H a (or_introl eq_refl)). assert (0 <= Rsum f l) by (apply IH; intros; apply H; right; assumption). lra.
  Qed.
  Lemma Rsum_le f g l : (forall i, In i l -> f i <= g i) -> Rsum f l <= Rsum g l.
  Proof.
    induction l as [|a l IH]; intros H; [simpl; lra|]. rewrite !Rsum_cons.
    pose proof (H a (or_introl eq_refl)). assert (Rsum f l <= Rsum g l) by (apply IH; intros; apply H; right; assumption). lra.
  Qed.
  Lemma Rprod_pos f l : (forall i, In i l -> 0 < f i) -> 0 < Rprod f l.
  Proof.
    induction l as [|a l IH]; intros H; [simpl; lra|]. rewrite Rprod_cons.
    apply Rmult_lt_0_compat; [apply H; left; reflexivity|]. apply IH. intros; apply H; right; assumption.
  Qed.
  Lemma Rprod_mul f g l : Rprod (fun i => f i * g i) l = Rprod f l * Rprod g l.
  Proof. induction l as [|a l IH]; [simpl; lra|]. rewrite !Rprod_cons, IH. ring. Qed.
  Lemma Rprod_one f l : (forall i, In i l -> f i = 1) -> Rprod f l = 1.
  Proof.
    induction l as [|a l IH]; intros H; [reflexivity|]. rewrite Rprod_cons, (H a (or_introl eq_refl)), IH; [lra|].
    intros i Hi; apply H; right; exact Hi.
  Qed.
  Lemma Rprod_zero f l a : In a l -> f a = 0 -> Rprod f l = 0.
  Proof.
    induction l as [|b l IH]; intros Hin E; [destruct Hin|]. rewrite Rprod_cons.
    destruct Hin as [->|H]; [rewrite E; ring|]. rewrite IH by assumption. ring.
  Qed.
  Lemma ln_Rprod f l : (forall i, In i l -> 0 < f i) -> ln (Rprod f l) = Rsum (fun i => ln (f i)) l.
  Proof.
    induction l as [|a l IH]; intros H; [simpl; apply ln_1|]. rewrite Rprod_cons, Rsum_cons, ln_mult.
    - rewrite IH; [reflexivity|]. intros; apply H; right; assumption.
    - apply H; left; reflexivity.
    - apply Rprod_pos. intros; apply H; right; assumption.
  Qed.
  Lemma Rsum_perm f l l' : Permutation l l' -> Rsum f l = Rsum f l'.
  Proof. induction 1; rewrite ?Rsum_cons; try lra; reflexivity. Qed.
  Lemma Rprod_perm f l l' : Permutation l l' -> Rprod f l = Rprod f l'.
  Proof. induction 1; rewrite ?Rprod_cons; try congruence; [ring]. Qed.
End Sums.

Lemma Rsum_map {A B} (h : A -> B) (f : B -> R) l : Rsum f (map h l) = Rsum (fun a => f (h a)) l.
Proof. induction l as [|a l IH]; [reflexivity|]. simpl map. rewrite !Rsum_cons, IH. reflexivity. Qed.
Lemma Rprod_map {A B} (h : A -> B) (f : B -> R) l : Rprod f (map h l) = Rprod (fun a => f (h a)) l.
Proof. induction l as [|a l IH]; [reflexivity|]. simpl map. rewrite !Rprod_cons, IH. reflexivity. Qed.
Lemma Rsum_flat_map {A B} (h : A -> list B) (f : B -> R) l : Rsum f (flat_map h l) = Rsum (fun a => Rsum f (h a)) l.
Proof. induction l as [|a l IH]; [reflexivity|]. simpl flat_map. rewrite Rsum_app, Rsum_cons, IH. reflexivity. Qed.
Lemma Rsum_swap {A B} (f : A -> B -> R) l l' :
  Rsum (fun a => Rsum (f a) l') l = Rsum (fun b => Rsum (fun a => f a b) l) l'.
Proof.
  induction l as [|a l IH]; [simpl; symmetry; apply Rsum_zero; reflexivity|].
  rewrite Rsum_cons, IH, <- Rsum_add. apply Rsum_ext. intros b _. rewrite Rsum_cons. reflexivity.
Qed.
Lemma Rprod_swap {A B} (f : A -> B -> R) l l' :
  Rprod (fun a => Rprod (f a) l') l = Rprod (fun b => Rprod (fun a => f a b) l) l'.
Proof.
  induction l as [|a l IH]; [simpl; symmetry; apply Rprod_one; reflexivity|].
  rewrite Rprod_cons, IH, <- Rprod_mul. apply Rprod_ext. intros b _. rewrite Rprod_cons. reflexivity.
Qed.

(** A sum with a single nonzero term. *)
Lemma Rsum_single (f : nat -> R) n N : (n < N)%nat ->
  (forall i, (i < N)%nat -> i <> n -> f i = 0) -> Rsum f (seq 0 N) = f n.
Proof.
  intros Hn H.
  assert (G : forall l, NoDup l -> In n l -> (forall i, In i l -> i <> n -> f i = 0) -> Rsum f l = f n).
  { induction l as [|a l IH]; intros Hnd Hin Hz; [destruct Hin|]. rewrite Rsum_cons. inversion Hnd; subst.
    destruct Hin as [->|Hin].
    - rewrite Rsum_zero; [lra|]. intros i Hi. apply Hz; [right; exact Hi|]. intros ->. contradiction.
    - rewrite IH; [|assumption|exact Hin|intros; apply Hz; [right|]; assumption].
      rewrite (Hz a (or_introl eq_refl)); [lra|]. intros ->. contradiction. }
  apply G; [apply seq_NoDup|apply in_seq0; exact Hn|]. intros i Hi. apply H, in_seq0, Hi.
Qed.

Lemma Rsum_IZR f ls : Rsum (fun i => IZR (f i)) ls = IZR (Zsum f ls).
Proof. induction ls as [|a ls IH]; [reflexivity|]. rewrite Rsum_cons, Zsum_cons, plus_IZR, IH. reflexivity. Qed.

Lemma ln_div a b : 0 < a -> 0 < b -> ln (a / b) = ln a - ln b.
Proof. intros Ha Hb. unfold Rdiv. rewrite ln_mult, ln_Rinv by (try apply Rinv_0_lt_compat; assumption). lra. Qed.

(** Proofs for C45-C51, C54-C56, C66. *)
From Coq Require Import String Lra.
From Verif Require Import Base BaseLemmas BaseR BaseRLemmas Spec SpecR SpecMax SpecHelpers MaxMachine MaxMachineProofs Helpers OutputsProofs LambdaProofs SamplingProofs InvarianceProofs.
Local Open Scope R_scope.

Lemma nth_map_lt {A B} (f : A -> B) l i d e : (i < List.length l)%nat -> nth i (map f l) e = f (nth i l d).
Proof. intros H. rewrite (nth_indep _ e (f d)) by (rewrite map_length; exact H). apply map_nth. Qed.

(** * random_choice *)
Lemma cumulative_S p i : (i < List.length p)%nat -> cumulative p (S i) = cumulative p i + nth i p 0.
Proof.
  unfold cumulative. revert i. induction p as [|x p IH]; intros i Hi; [cbn in Hi; lia|].
  destruct i as [|i]; [cbn; lra|]. cbn [firstn nth Rsum fold_right]. cbn [List.length] in Hi.
  specialize (IH i ltac:(lia)). unfold Rsum in *. cbn [firstn] in IH. rewrite IH. lra.
Qed.
Lemma cumulative_mono p i j : Forall (fun x => 0 <= x) p -> (i <= j <= List.length p)%nat -> cumulative p i <= cumulative p j.
Proof.
  intros HP [H1 H2]. induction j as [|j IH]; [replace i with 0%nat by lia; lra|].
  destruct (Nat.eq_dec i (S j)) as [->|Hne]; [lra|]. rewrite cumulative_S by lia.
  specialize (IH ltac:(lia) ltac:(lia)). assert (K := Forall_nth' _ p j 0 HP ltac:(lia)). lra.
Qed.
Lemma choice_loop_spec u p : forall i acc, Forall (fun x => 0 <= x) p -> acc <= u ->
  match choice_loop u p i acc with
  | Some j => exists k, j = (i + S k)%nat /\ (k < List.length p)%nat /\ acc + cumulative p k <= u < acc + cumulative p (S k)
  | None => acc + Rsum (fun x => x) p <= u
  end.
Proof.
  induction p as [|x p IH]; intros i acc HP Ha; cbn [choice_loop].
  - cbn. lra.
  - inversion HP as [|? ? Hx HP']; subst. destruct (Rltb_spec u (acc + x)) as [H|H].
    + exists 0%nat. cbn. split; [lia|]. split; [lia|]. lra.
    + specialize (IH (S i) (acc + x) HP' ltac:(lra)). destruct (choice_loop u p (S i) (acc + x)) as [j|].
      * destruct IH as (k & -> & Hk & HB). exists (S k). split; [lia|]. split; [cbn; lia|].
        unfold cumulative in *. cbn [firstn Rsum fold_right] in *. unfold Rsum in *. lra.
      * cbn [Rsum fold_right]. unfold Rsum in IH. lra.
Qed.
Lemma wrap8_small i : (i <= 127)%nat -> wrap8 (Z.of_nat i) = Z.of_nat i.
Proof. intros H. unfold wrap8, wrap. change (2 ^ (8 - 1))%Z with 128%Z. change (2 ^ 8)%Z with 256%Z. rewrite Z.mod_small by lia. lia. Qed.
Lemma C45_lemma p u : Forall (fun x => 0 <= x) p -> Rsum (fun x => x) p = 1 -> (List.length p <= 127)%nat -> 0 <= u < 1 ->
  (exists i, (1 <= i <= List.length p)%nat /\ random_choice p u = Z.of_nat i) /\
  (forall i, (1 <= i <= List.length p)%nat ->
     cumulative p i - cumulative p (i - 1) = nth (i - 1) p 0 /\
     (random_choice p u = Z.of_nat i <-> cumulative p (i - 1) <= u < cumulative p i)).
Proof.
  intros HP HS HL Hu. pose proof (choice_loop_spec u p 0 0 HP ltac:(lra)) as H. unfold random_choice.
  destruct (choice_loop u p 0 0) as [j|]; [|lra]. destruct H as (k & -> & Hk & HB). cbn [Nat.add].
  rewrite wrap8_small by lia. split.
  - exists (S k). split; [lia|reflexivity].
  - intros i Hi. destruct i as [|i]; [lia|]. replace (S i - 1)%nat with i by lia.
    split; [rewrite cumulative_S by lia; lra|]. split.
    + intros E. replace i with k by lia. lra.
    + intros Hc. destruct (Nat.lt_trichotomy i k) as [G|[->|G]]; [|reflexivity|].
      * pose proof (cumulative_mono p (S i) k HP ltac:(lia)). lra.
      * pose proof (cumulative_mono p (S k) i HP ltac:(lia)). lra.
Qed.
Lemma C45_fall_lemma p u : Forall (fun x => 0 <= x) p -> (List.length p <= 126)%nat -> 0 <= u -> Rsum (fun x => x) p <= u ->
  random_choice p u = (Z.of_nat (List.length p) + 1)%Z.
Proof.
  intros HP HL Hu HS. pose proof (choice_loop_spec u p 0 0 HP Hu) as H. unfold random_choice.
  destruct (choice_loop u p 0 0) as [j|].
  - destruct H as (k & -> & Hk & HB). pose proof (cumulative_mono p (S k) (List.length p) HP ltac:(lia)) as K.
    unfold cumulative in K at 2. rewrite firstn_all in K. lra.
  - replace (Z.of_nat (List.length p) + 1)%Z with (Z.of_nat (S (List.length p))) by lia. apply wrap8_small. lia.
Qed.

(** * Nested loops as one loop over the concatenation *)
Lemma scan_app {S A B} (f : S -> A -> res (S * B)) l1 : forall l2 s,
  scan f s (l1 ++ l2) = bind (scan f s l1) (fun p => bind (scan f (fst p) l2) (fun q => Ok (fst q, snd p ++ snd q))).
Proof.
  induction l1 as [|a l1 IH]; intros l2 s; cbn [app scan].
  - cbn [bind fst snd app]. destruct (scan f s l2) as [[x y]|e]; reflexivity.
  - destruct (f s a) as [[x y]|e]; [|reflexivity]. cbn [bind fst snd]. rewrite IH.
    destruct (scan f x l1) as [[x1 y1]|e]; [|reflexivity]. cbn [bind fst snd].
    destruct (scan f x1 l2) as [[x2 y2]|e]; reflexivity.
Qed.
Lemma scan_length {S A B} (f : S -> A -> res (S * B)) l : forall s s' l', scan f s l = Ok (s', l') -> List.length l' = List.length l.
Proof.
  induction l as [|a l IH]; intros s s' l' H; cbn [scan] in H; [injection H as <- <-; reflexivity|].
  destruct (f s a) as [[x y]|e]; [|discriminate]. cbn [bind fst snd] in H.
  destruct (scan f x l) as [[x1 y1]|e] eqn:E; [|discriminate]. cbn [bind fst snd] in H. injection H as <- <-. cbn. f_equal. eapply IH. eassumption.
Qed.
Lemma scan2_concat {S A B} (f : S -> A -> res (S * B)) X : forall s s' c, scan f s (concat X) = Ok (s', c) ->
  exists Y, scan (scan f) s X = Ok (s', Y) /\ concat Y = c /\ Forall2 (fun a b => List.length a = List.length b) X Y.
Proof.
  induction X as [|r X IH]; intros s s' c H.
  - cbn in H. injection H as <- <-. exists []. repeat split; constructor.
  - cbn [concat] in H. rewrite scan_app in H. cbn [scan]. destruct (scan f s r) as [[s1 r']|e] eqn:E1; [|discriminate].
    cbn [bind fst snd] in H |- *. destruct (scan f s1 (concat X)) as [[s2 c']|e] eqn:E2; [|discriminate]. cbn [bind fst snd] in H. injection H as <- <-.
    destruct (IH s1 s2 c' E2) as (Y & H1 & H2 & H3). rewrite H1. cbn [bind fst snd]. exists (r' :: Y).
    split; [reflexivity|]. split; [cbn; rewrite H2; reflexivity|]. constructor; [symmetry; eapply scan_length; eassumption|assumption].
Qed.
(** A cell function that never fails. *)
Lemma scan_total {A B} (f : nat -> A -> res (nat * B)) (g : nat -> A -> B) l : (forall k x, f k x = Ok (S k, g k x)) ->
  forall k, exists l', scan f k l = Ok ((k + List.length l)%nat, l') /\ List.length l' = List.length l /\
    forall i d d', (i < List.length l)%nat -> nth i l' d' = g (k + i)%nat (nth i l d).
Proof.
  intros Hf. induction l as [|x l IH]; intros k; cbn [scan].
  - exists []. split; [f_equal; f_equal; cbn; lia|]. split; [reflexivity|]. intros i d d' Hi. cbn in Hi. lia.
  - rewrite Hf. cbn [bind fst snd]. destruct (IH (S k)) as (l' & E & HL & HN). rewrite E. cbn [bind fst snd].
    eexists. split; [f_equal; f_equal; cbn [List.length]; lia|]. split; [cbn; rewrite HL; reflexivity|].
    intros [|i] d d' Hi; cbn [nth]; [rewrite Nat.add_0_r; reflexivity|].
    cbn [List.length] in Hi. rewrite (HN i d d') by lia. f_equal. lia.
Qed.
Lemma concat_nth {A} (X : list (list A)) D d0 : Forall (fun r => List.length r = D) X ->
  forall n d, (n < List.length X)%nat -> (d < D)%nat -> nth (n * D + d) (concat X) d0 = nth d (nth n X []) d0.
Proof.
  induction 1 as [|r X Hr HX IH]; intros n d Hn Hd; [cbn in Hn; lia|]. cbn [concat]. destruct n as [|n].
  - cbn [Nat.mul Nat.add nth]. apply app_nth1. lia.
  - cbn [nth]. rewrite app_nth2 by (cbn; lia). cbn [List.length] in Hn. rewrite <- (IH n d) by lia. f_equal. cbn. lia.
Qed.
Lemma concat_length {A} (X : list (list A)) D : Forall (fun r => List.length r = D) X -> List.length (concat X) = (List.length X * D)%nat.
Proof. induction 1 as [|r X Hr HX IH]; [reflexivity|]. cbn [concat]. rewrite app_length, IH. cbn. lia. Qed.
Lemma shape_of {A B} (X : list (list A)) (Y : list (list B)) D : Forall2 (fun a b => List.length a = List.length b) X Y ->
  Forall (fun r => List.length r = D) X -> Forall (fun r => List.length r = D) Y /\ List.length Y = List.length X.
Proof.
  induction 1 as [|a b X Y Hab HXY IH]; intros HF; [split; [constructor|reflexivity]|].
  inversion HF; subst. destruct (IH H2) as [I1 I2]. split; [constructor; [congruence|assumption]|cbn; congruence].
Qed.
Lemma noise2_generic {A} (f : nat -> A -> res (nat * A)) (g : nat -> A -> A) X N D (d0 : A) : (forall k x, f k x = Ok (S k, g k x)) ->
  List.length X = N -> Forall (fun r => List.length r = D) X -> forall k,
  exists out, scan (scan f) k X = Ok ((k + N * D)%nat, out) /\ List.length out = N /\ Forall (fun r => List.length r = D) out /\
    forall n d, (n < N)%nat -> (d < D)%nat -> nth d (nth n out []) d0 = g (k + (n * D + d))%nat (nth d (nth n X []) d0).
Proof.
  intros Hf HN HD k. destruct (scan_total f g (concat X) Hf k) as (c & E & HL & HV).
  destruct (scan2_concat f X k _ _ E) as (Y & E' & EC & HS). destruct (shape_of X Y D HS HD) as [S1 S2].
  exists Y. rewrite E', (concat_length X D HD), HN. split; [reflexivity|]. split; [congruence|]. split; [exact S1|].
  intros n d Hn Hd. rewrite <- (concat_nth X D) by (assumption || lia). rewrite <- (concat_nth Y D) by (assumption || lia).
  rewrite EC. apply HV. rewrite (concat_length X D HD), HN. nia.
Qed.
Lemma C48_2d_lemma rand X p N D : has_shape2 X N D ->
  exists out, add_bernoulli_noise_2d rand X p = Ok out /\ has_shape2 out N D /\
    (forall n d, (n < N)%nat -> (d < D)%nat ->
       (rand (n * D + d)%nat < p -> at2 out n d = (- at2 X n d)%Z) /\ (p <= rand (n * D + d)%nat -> at2 out n d = at2 X n d)).
Proof.
  intros [HN HD]. destruct (noise2_generic (noise_cell rand p) (fun k x => if Rltb (rand k) p then (- x)%Z else x) X N D 0%Z
    (fun k x => eq_refl) HN HD 0) as (out & E & S1 & S2 & HV).
  exists out. unfold add_bernoulli_noise_2d. rewrite E. split; [reflexivity|]. split; [split; assumption|].
  intros n d Hn Hd. specialize (HV n d Hn Hd). cbn [Nat.add] in HV.
  unfold at2, row, at1. split; intros H; etransitivity; try exact HV; destruct (Rltb_spec (rand (n * D + d)%nat) p); try lra; reflexivity.
Qed.
Lemma noise3_generic {A} (f : nat -> A -> res (nat * A)) (g : nat -> A -> A) X N D M (d0 : A) : (forall k x, f k x = Ok (S k, g k x)) ->
  List.length X = N -> Forall (fun s => List.length s = D /\ Forall (fun r => List.length r = M) s) X ->
  exists k out, scan (scan (scan f)) 0%nat X = Ok (k, out) /\ List.length out = N /\
    Forall (fun s => List.length s = D /\ Forall (fun r => List.length r = M) s) out /\
    forall n d m, (n < N)%nat -> (d < D)%nat -> (m < M)%nat ->
      nth m (nth d (nth n out []) []) d0 = g ((n * D + d) * M + m)%nat (nth m (nth d (nth n X []) []) d0).
Proof.
  intros Hf HN HX.
  assert (HD : Forall (fun s => List.length s = D) X) by (eapply Forall_impl; [|exact HX]; intros ? H; apply H).
  assert (HM : Forall (fun r => List.length r = M) (concat X)).
  { apply Forall_concat. eapply Forall_impl; [|exact HX]. intros ? H. apply H. }
  destruct (noise2_generic f g (concat X) (N * D) M d0 Hf ltac:(rewrite (concat_length X D HD), HN; reflexivity) HM 0) as (c & E & S1 & S2 & HV).
  destruct (scan2_concat (scan f) X 0%nat _ _ E) as (Y & E' & EC & HS). destruct (shape_of X Y D HS HD) as [T1 T2].
  do 2 eexists. split; [exact E'|]. split; [congruence|]. split.
  - rewrite <- EC in S2. clear - S2 T1. revert T1. induction Y as [|y Y IH]; intros T1; [constructor|]. inversion T1; subst.
    cbn [concat] in S2. apply Forall_app in S2. destruct S2. constructor; [split; [reflexivity|assumption]|apply IH; assumption].
  - intros n d m Hn Hd Hm. rewrite <- (concat_nth X D []) by (assumption || lia). rewrite <- (concat_nth Y D []) by (assumption || lia).
    rewrite EC. rewrite HV; [cbn [Nat.add]; reflexivity|nia|assumption].
Qed.
Lemma C48_bool_lemma rand X p N D M : List.length X = N -> Forall (fun s => List.length s = D /\ Forall (fun r => List.length r = M) s) X ->
  exists out, add_bernoulli_noise_bool rand X p = Ok out /\ List.length out = N /\
    Forall (fun s => List.length s = D /\ Forall (fun r => List.length r = M) s) out /\
    forall n d m, (n < N)%nat -> (d < D)%nat -> (m < M)%nat ->
      let x := nth m (nth d (nth n X []) []) false in let y := nth m (nth d (nth n out []) []) false in
      (rand ((n * D + d) * M + m)%nat < p -> y = negb x) /\ (p <= rand ((n * D + d) * M + m)%nat -> y = x).
Proof.
  intros HN HX. destruct (noise3_generic (noise_cell_bool rand p) (fun k x => if Rltb (rand k) p then negb x else x) X N D M false
    (fun k x => eq_refl) HN HX) as (k & out & E & S1 & S2 & HV).
  exists out. unfold add_bernoulli_noise_bool. rewrite E. split; [reflexivity|]. split; [assumption|]. split; [assumption|].
  intros n d m Hn Hd Hm. cbv zeta. rewrite (HV n d m) by assumption. 
  split; intros H; destruct (Rltb_spec (rand ((n * D + d) * M + m)%nat) p); try lra; reflexivity.
Qed.
(** On {-1,1}-coded integers a flipped entry becomes -2 or 0. *)
Lemma C48_int_lemma rand X p N D M : has_shape3 X N D M -> bin3 X -> 
  exists out, add_bernoulli_noise_int rand X p = Ok out /\ has_shape3 out N D M /\
    forall n d m, (n < N)%nat -> (d < D)%nat -> (m < M)%nat -> rand ((n * D + d) * M + m)%nat < p ->
      at3 out n d m <> at3 X n d m /\ at3 out n d m <> (- at3 X n d m)%Z.
Proof.
  intros [HN HX] HB. destruct (noise3_generic (noise_cell_int rand p) (fun k x => if Rltb (rand k) p then Z.lnot x else x) X N D M 0%Z
    (fun k x => eq_refl) HN HX) as (k & out & E & S1 & S2 & HV).
  exists out. unfold add_bernoulli_noise_int. rewrite E. split; [reflexivity|]. split; [split; assumption|].
  intros n d m Hn Hd Hm Hr. specialize (HV n d m Hn Hd Hm).
  assert (Ev : at3 out n d m = Z.lnot (at3 X n d m)).
  { unfold at3, at2, row, at1, slab. etransitivity; [exact HV|]. destruct (Rltb_spec (rand ((n * D + d) * M + m)%nat) p); [reflexivity|lra]. }
  assert (HP : pm1 (at3 X n d m)).
  { unfold at3. apply (bin2_at (slab X n) D M); try assumption.
    - unfold slab. apply (Forall_nth' (fun s => has_shape2 s D M)); [exact HX|lia].
    - unfold slab. apply (Forall_nth' bin2); [exact HB|lia]. }
  rewrite Ev. destruct HP as [-> | ->]; cbn; lia.
Qed.

(** * Biased noise *)
Definition obs (x : Z) : bool := negb (x =? 0)%Z.
Lemma biased_scan rand pp pm l : Forall tern l -> forall k q, exists s' l', scan (biased_cell rand pp pm) (k, q) l = Ok (s', l') /\
  fst s' = (k + List.length (filter obs l))%nat /\ List.length l' = List.length l /\
  forall i, (i < List.length l)%nat -> let x := nth i l 0%Z in let u := rand (k + List.length (filter obs (firstn i l)))%nat in
    nth i l' 0%Z = (if (x =? 0)%Z then 0%Z else if Rltb u (if (x =? 1)%Z then pp else pm) then (- x)%Z else x).
Proof.
  induction 1 as [|x l Hx HF IH]; intros k q.
  - exists (k, q), []. repeat split; [cbn; lia|]. intros i Hi. cbn in Hi. lia.
  - assert (K : forall s1 y, biased_cell rand pp pm (k, q) x = Ok (s1, y) -> fst s1 = (k + if obs x then 1 else 0)%nat ->
      y = (if (x =? 0)%Z then 0%Z else if Rltb (rand k) (if (x =? 1)%Z then pp else pm) then (- x)%Z else x) ->
      exists s' l', scan (biased_cell rand pp pm) (k, q) (x :: l) = Ok (s', l') /\
        fst s' = (k + List.length (filter obs (x :: l)))%nat /\ List.length l' = List.length (x :: l) /\
        forall i, (i < List.length (x :: l))%nat -> let x0 := nth i (x :: l) 0%Z in
          let u := rand (k + List.length (filter obs (firstn i (x :: l))))%nat in
          nth i l' 0%Z = (if (x0 =? 0)%Z then 0%Z else if Rltb u (if (x0 =? 1)%Z then pp else pm) then (- x0)%Z else x0)).
    { intros [k1 q1] y E Ek Ey. cbn [scan]. rewrite E. cbn [bind fst snd]. cbn [fst] in Ek. destruct (IH k1 q1) as (s' & l' & E' & F1 & F2 & F3).
      rewrite E'. cbn [bind fst snd]. do 2 eexists. split; [reflexivity|]. cbn [fst snd].
      assert (Hc : forall m, List.length (filter obs (x :: m)) = ((if obs x then 1 else 0) + List.length (filter obs m))%nat).
      { intros m. cbn [filter]. destruct (obs x); reflexivity. }
      split; [rewrite F1, Hc; lia|]. split; [cbn; rewrite F2; reflexivity|]. intros [|i] Hi; cbv zeta; cbn [nth firstn].
      - rewrite Ey. cbn [filter List.length]. rewrite Nat.add_0_r. reflexivity.
      - cbn [List.length] in Hi. rewrite (F3 i) by lia. cbv zeta. rewrite Hc, Ek. rewrite Nat.add_assoc. reflexivity. }
    destruct Hx as [->|[-> | ->]].
    + eapply K; unfold biased_cell; cbn [Z.eqb Pos.eqb fst snd]; [reflexivity|cbn; lia|reflexivity].
    + eapply K; unfold biased_cell; cbn [Z.eqb Pos.eqb fst snd]; [reflexivity|cbn; lia|reflexivity].
    + eapply K; unfold biased_cell; cbn [Z.eqb Pos.eqb fst snd]; [reflexivity|cbn; lia|reflexivity].
Qed.
Lemma C48_biased_lemma rand X pp pm N D : has_shape2 X N D -> tern2 X ->
  exists out, add_bernoulli_noise_2d_biased rand X pp pm = Ok out /\ has_shape2 out N D /\
    (forall n d, (n < N)%nat -> (d < D)%nat -> let u := rand (observed_before X D n d) in
       (at2 X n d = 0%Z -> at2 out n d = 0%Z) /\
       (at2 X n d = 1%Z -> (u < pp -> at2 out n d = (-1)%Z) /\ (pp <= u -> at2 out n d = 1%Z)) /\
       (at2 X n d = (-1)%Z -> (u < pm -> at2 out n d = 1%Z) /\ (pm <= u -> at2 out n d = (-1)%Z))).
Proof.
  intros [HN HD] HT. unfold mat, vec in *. assert (HC : Forall tern (concat X)) by (apply Forall_concat; exact HT).
  destruct (biased_scan rand pp pm (concat X) HC 0 None) as (s' & c & E & _ & _ & HV).
  destruct (scan2_concat (biased_cell rand pp pm) X (0%nat, None) _ _ E) as (Y & E' & EC & HS). destruct (shape_of X Y D HS HD) as [S1 S2].
  exists Y. unfold add_bernoulli_noise_2d_biased. rewrite E'. split; [reflexivity|]. split; [split; [etransitivity; [exact S2|exact HN]|exact S1]|].
  intros n d Hn Hd. cbv zeta.
  assert (Hlt : (n * D + d < List.length (concat X))%nat) by (rewrite (concat_length X D HD), HN; nia).
  specialize (HV (n * D + d)%nat Hlt). cbv zeta in HV. cbn [Nat.add] in HV.
  rewrite <- EC in HV. rewrite (concat_nth X D) in HV by (assumption || lia).
  rewrite (concat_nth Y D) in HV by (assumption || lia).
  change (nth d (nth n X []) 0%Z) with (at2 X n d) in HV. change (nth d (nth n Y []) 0%Z) with (at2 Y n d) in HV.
  change (List.length (filter obs (firstn (n * D + d) (concat X)))) with (observed_before X D n d) in HV. rewrite HV. clear HV.
  split; [intros ->; reflexivity|]. split; intros ->; cbn [Z.eqb Pos.eqb]; split; intros H;
    match goal with |- context [Rltb ?a ?b] => destruct (Rltb_spec a b) end; try lra; reflexivity.
Qed.
(** p = 0 and p >= 1. *)
Lemma mat_ext (X Y : mat) N D : has_shape2 X N D -> has_shape2 Y N D -> (forall n d, (n < N)%nat -> (d < D)%nat -> at2 X n d = at2 Y n d) -> X = Y.
Proof.
  intros [A1 A2] [B1 B2] H. apply (list_ext X Y []); [congruence|]. intros n Hn.
  assert (K1 := Forall_nth' _ X n [] A2 Hn). assert (K2 := Forall_nth' _ Y n [] B2 ltac:(lia)). cbv beta in K1, K2.
  apply (list_ext (nth n X []) (nth n Y []) 0%Z); [etransitivity; [exact K1|symmetry; exact K2]|]. intros d Hd. apply (H n d); [lia|]. rewrite <- K1. exact Hd.
Qed.
Lemma C48_extremes_lemma rand X p N D : has_shape2 X N D -> (forall k, 0 <= rand k < 1) ->
  (p <= 0 -> add_bernoulli_noise_2d rand X p = Ok X) /\ (1 <= p -> add_bernoulli_noise_2d rand X p = Ok (map (map Z.opp) X)).
Proof.
  intros HS HR. destruct (C48_2d_lemma rand X p N D HS) as (out & E & So & HV). rewrite E. split; intros Hp; f_equal.
  - apply (mat_ext out X N D So HS). intros n d Hn Hd. apply HV; try assumption. specialize (HR (n * D + d)%nat). lra.
  - assert (SN : has_shape2 (map (map Z.opp) X) N D).
    { destruct HS as [H1 H2]. split; [rewrite map_length; exact H1|]. apply Forall_map. eapply Forall_impl; [|exact H2]. intros r Hr. rewrite map_length. exact Hr. }
    apply (mat_ext out _ N D So SN). intros n d Hn Hd. destruct (HV n d Hn Hd) as [K _]. rewrite K by (specialize (HR (n * D + d)%nat); lra).
    unfold at2, row, at1. symmetry.
    transitivity (nth d (map Z.opp (nth n X [])) 0%Z).
    + f_equal. exact (nth_map_lt (map Z.opp) X n [] [] ltac:(destruct HS as [HN _]; exact (eq_ind_r (fun k => n < k)%nat Hn HN))).
    + exact (map_nth Z.opp (nth n X []) 0%Z d).
Qed.

(** * Seeds *)
Lemma C49_lemma {G} (next : G -> R * G) reseed randint X p N D seed g1 g2 n d :
  has_shape2 X N D -> (n < N)%nat -> (d < D)%nat -> at2 X n d <> 0%Z ->
  stream next g1 (n * D + d)%nat < p <= stream next g2 (n * D + d)%nat ->
  noise_2d_call next reseed randint X p (Some seed) g1 <> noise_2d_call next reseed randint X p (Some seed) g2.
Proof.
  intros HS Hn Hd Hx Hp E. unfold noise_2d_call, seeding in E.
  destruct (C48_2d_lemma (stream next g1) X p N D HS) as (o1 & E1 & _ & V1).
  destruct (C48_2d_lemma (stream next g2) X p N D HS) as (o2 & E2 & _ & V2).
  rewrite E1, E2 in E. injection E as ->.
  destruct (V1 n d Hn Hd) as [K1 _]. destruct (V2 n d Hn Hd) as [_ K2]. rewrite K1 in K2 by lra. specialize (K2 ltac:(lra)). lia.
Qed.

(** * Recoding *)
Lemma wrap8_id x : (-128 <= x <= 127)%Z -> wrap8 x = x.
Proof. intros H. unfold wrap8, wrap. change (2 ^ (8 - 1))%Z with 128%Z. change (2 ^ 8)%Z with 256%Z. rewrite Z.mod_small by lia. lia. Qed.
Lemma map_wrap8_id v : Forall (fun x => (-128 <= x <= 127)%Z) v -> map wrap8 v = v.
Proof. induction 1 as [|x v Hx _ IH]; [reflexivity|]. cbn. rewrite IH, wrap8_id by assumption. reflexivity. Qed.
Lemma C50_lemma data :
  (Forall (fun x => x = 0 \/ x = 1)%Z data ->
     check_binary_coding data = map (fun x => if (x =? 1)%Z then 1%Z else (-1)%Z) data /\
     check_binary_coding (check_binary_coding data) = check_binary_coding data) /\
  (In (-1)%Z data -> Forall (fun x => (-128 <= x <= 127)%Z) data -> check_binary_coding data = data).
Proof.
  assert (U : forall data, In (-1)%Z data -> Forall (fun x => (-128 <= x <= 127)%Z) data -> check_binary_coding data = data).
  { clear. intros data Hin HR. unfold check_binary_coding. replace (existsb (Z.eqb (-1)) data) with true; [apply map_wrap8_id; assumption|].
    symmetry. apply existsb_exists. exists (-1)%Z. split; [assumption|reflexivity]. }
  split; [|apply U]. intros H.
  assert (E1 : forall v, Forall (fun x => x = 0 \/ x = 1)%Z v -> check_binary_coding v = map (fun x => if (x =? 1)%Z then 1%Z else (-1)%Z) v).
  { clear. intros v H. unfold check_binary_coding.
    replace (existsb (Z.eqb (-1)) v) with false.
    - rewrite map_map. apply map_ext_in. intros x Hx. rewrite Forall_forall in H. destruct (H x Hx) as [-> | ->]; reflexivity.
    - symmetry. apply Bool.not_true_iff_false. intros E. apply existsb_exists in E. destruct E as (x & Hx & Hm).
      rewrite Forall_forall in H. destruct (H x Hx) as [-> | ->]; discriminate. }
  split; [apply E1; assumption|]. rewrite (E1 data H). destruct (in_dec Z.eq_dec 0%Z data) as [H0|H0].
  - apply U.
    + apply in_map_iff. exists 0%Z. split; [reflexivity|assumption].
    + apply Forall_map. apply Forall_forall. intros x _. destruct (x =? 1)%Z; lia.
  - assert (A : data = map (fun x => if (x =? 1)%Z then 1%Z else (-1)%Z) data).
    { rewrite <- (map_id data) at 1. apply map_ext_in. intros x Hx. rewrite Forall_forall in H. destruct (H x Hx) as [-> | ->]; [contradiction|reflexivity]. }
    rewrite <- A. rewrite (E1 data H). congruence.
Qed.

(** * Boolean tensor product *)
Lemma coded_nth r l : nth l (coded r) 0%Z = 1%Z <-> nth l r false = true.
Proof.
  unfold coded. destruct (Nat.lt_ge_cases l (List.length r)) as [H|H].
  - rewrite (nth_map_lt _ r l false 0%Z H).
    destruct (nth l r false); split; intros K; try reflexivity; try discriminate; lia.
  - rewrite !nth_overflow by (try rewrite map_length; assumption). split; discriminate.
Qed.
Lemma C51_lemma Z_ U V ZL UL VL :
  (UL = ZL -> VL = ZL -> exists X, boolean_tensor_product Z_ U V ZL UL VL = Ok X /\
     List.length X = List.length Z_ /\ Forall (fun s => List.length s = List.length U /\ Forall (fun r => List.length r = List.length V) s) X /\
     forall n d m, (n < List.length Z_)%nat -> (d < List.length U)%nat -> (m < List.length V)%nat ->
       let x := nth m (nth d (nth n X []) []) false in
       (x = true <-> exists l, (l < ZL)%nat /\ nth l (nth n Z_ []) false = true /\ nth l (nth d U []) false = true /\ nth l (nth m V []) false = true) /\
       lom_output OR AND [coded (nth n Z_ []); coded (nth d U []); coded (nth m V [])] ZL (if x then 1%Z else (-1)%Z)) /\
  (UL <> ZL \/ VL <> ZL -> boolean_tensor_product Z_ U V ZL UL VL = Err AssertionError).
Proof.
  split.
  - intros -> ->. unfold boolean_tensor_product. rewrite !Nat.eqb_refl. cbn [negb]. eexists. split; [reflexivity|].
    split; [apply map_length|]. split.
    + apply Forall_map. apply Forall_forall. intros zn _. split; [apply map_length|]. apply Forall_map. apply Forall_forall. intros ud _. apply map_length.
    + intros n d m Hn Hd Hm. cbv zeta.
      assert (E : nth m (nth d (nth n (map (fun zn => map (fun ud => map (fun vm =>
         existsb (fun l => nth l zn false && nth l ud false && nth l vm false) (seq 0 ZL)) V) U) Z_) []) []) false =
         existsb (fun l => nth l (nth n Z_ []) false && nth l (nth d U []) false && nth l (nth m V []) false) (seq 0 ZL)).
      { rewrite (nth_map_lt _ Z_ n [] []) by assumption. rewrite (nth_map_lt _ U d [] []) by assumption. rewrite (nth_map_lt _ V m [] false) by assumption. reflexivity. }
      rewrite E.
      assert (EX : existsb (fun l => nth l (nth n Z_ []) false && nth l (nth d U []) false && nth l (nth m V []) false) (seq 0 ZL) = true <->
        exists l, (l < ZL)%nat /\ nth l (nth n Z_ []) false = true /\ nth l (nth d U []) false = true /\ nth l (nth m V []) false = true).
      { rewrite existsb_exists. split.
        - intros (l & Hl & K). apply in_seq in Hl. apply andb_prop in K. destruct K as [K K3]. apply andb_prop in K. destruct K as [K1 K2].
          exists l. split; [lia|]. auto.
        - intros (l & Hl & K1 & K2 & K3). exists l. split; [apply in_seq; lia|]. rewrite K1, K2, K3. reflexivity. }
      split; [exact EX|].
      assert (ET : lom_true OR AND [coded (nth n Z_ []); coded (nth d U []); coded (nth m V [])] ZL <->
        exists l, (l < ZL)%nat /\ nth l (nth n Z_ []) false = true /\ nth l (nth d U []) false = true /\ nth l (nth m V []) false = true).
      { unfold lom_true, lop_holds. cbn [List.length]. split.
        - intros (l & Hl & K). exists l. split; [assumption|]. split; [|split]; apply coded_nth; [apply (K 0%nat)|apply (K 1%nat)|apply (K 2%nat)]; lia.
        - intros (l & Hl & K1 & K2 & K3). exists l. split; [assumption|]. intros k Hk.
          destruct k as [|[|[|k]]]; [| | |lia]; cbn [nth]; apply coded_nth; assumption. }
      unfold lom_output. rewrite ET, <- EX. destruct (existsb _ _); [left; split; reflexivity|right; split; [reflexivity|discriminate]].
  - intros H. unfold boolean_tensor_product. destruct (Nat.eqb_spec UL ZL), (Nat.eqb_spec VL ZL); try reflexivity. destruct H; contradiction.
Qed.

(** * unique_ordered *)
Lemma unique_spec {A} (eqb : A -> A -> bool) : (forall x y, reflect (x = y) (eqb x y)) -> forall s seen,
  NoDup (unique_loop eqb seen s) /\ (forall x, In x (unique_loop eqb seen s) <-> In x s /\ ~ In x seen) /\
  (forall a b x y i j, (a < b)%nat -> nth_error (unique_loop eqb seen s) a = Some x -> nth_error (unique_loop eqb seen s) b = Some y ->
     first_at s x i -> first_at s y j -> (i < j)%nat).
Proof.
  intros HE. induction s as [|z s IH]; intros seen; cbn [unique_loop].
  - split; [constructor|]. split; [intros x; cbn; tauto|]. intros a b x y i j _ Ha. destruct a; discriminate.
  - assert (HX : existsb (eqb z) seen = true <-> In z seen).
    { rewrite existsb_exists. split; [intros (y & Hy & E); destruct (HE z y); [subst; assumption|discriminate]|].
      intros Hz. exists z. split; [assumption|]. destruct (HE z z); [reflexivity|contradiction]. }
    assert (HF : forall x i, x <> z -> first_at (z :: s) x i -> exists i', i = S i' /\ first_at s x i').
    { intros x [|i] Hx [F1 F2]; [cbn in F1; congruence|]. exists i. split; [reflexivity|]. split; [exact F1|]. intros j Hj. apply (F2 (S j)). lia. }
    destruct (existsb (eqb z) seen) eqn:E.
    + destruct (IH seen) as (I1 & I2 & I3). split; [exact I1|]. split.
      * intros x. rewrite I2. cbn [In]. assert (Hz : In z seen) by (apply HX; reflexivity). split; [tauto|]. intros [[->|H] H']; [contradiction|tauto].
      * intros a b x y i j Hab Ha Hb Fx Fy. assert (Hz : In z seen) by (apply HX; reflexivity).
        assert (Nx : x <> z) by (intros ->; apply nth_error_In in Ha; apply I2 in Ha; tauto).
        assert (Ny : y <> z) by (intros ->; apply nth_error_In in Hb; apply I2 in Hb; tauto).
        destruct (HF x i Nx Fx) as (i' & -> & Fx'). destruct (HF y j Ny Fy) as (j' & -> & Fy').
        assert (K := I3 a b x y i' j' Hab Ha Hb Fx' Fy'). lia.
    + assert (Hz : ~ In z seen) by (intros H; apply HX in H; congruence).
      destruct (IH (z :: seen)) as (I1 & I2 & I3). split; [|split].
      * constructor; [intros H; apply I2 in H; cbn in H; tauto|exact I1].
      * intros x. cbn [In]. rewrite I2. cbn [In]. destruct (HE z x) as [<-|Hne]; tauto.
      * intros a b x y i j Hab Ha Hb Fx Fy. destruct b as [|b]; [lia|]. cbn in Hb.
        assert (Ny : y <> z) by (intros ->; apply nth_error_In in Hb; apply I2 in Hb; cbn in Hb; tauto).
        destruct (HF y j Ny Fy) as (j' & -> & Fy'). destruct a as [|a]; cbn in Ha.
        -- injection Ha as <-. destruct Fx as [F1 F2]. destruct i as [|i]; [lia|]. exfalso. apply (F2 0%nat); [lia|reflexivity].
        -- assert (Nx : x <> z) by (intros ->; apply nth_error_In in Ha; apply I2 in Ha; cbn in Ha; tauto).
           destruct (HF x i Nx Fx) as (i' & -> & Fx'). assert (K := I3 a b x y i' j' ltac:(lia) Ha Hb Fx' Fy'). lia.
Qed.
Lemma C54_lemma {A} (eqb : A -> A -> bool) s : (forall x y, reflect (x = y) (eqb x y)) ->
  NoDup (unique_ordered eqb s) /\ (forall x, In x (unique_ordered eqb s) <-> In x s) /\
  (forall a b x y i j, (a < b)%nat -> nth_error (unique_ordered eqb s) a = Some x -> nth_error (unique_ordered eqb s) b = Some y ->
     first_at s x i -> first_at s y j -> (i < j)%nat).
Proof.
  intros HE. destruct (unique_spec eqb HE s []) as (I1 & I2 & I3). split; [exact I1|]. split; [|exact I3].
  intros x. unfold unique_ordered. rewrite I2. cbn. tauto.
Qed.

(** * all_columsn_are_disjoint *)
Lemma C55_lemma m L : all_columsn_are_disjoint m L = true <-> forall i j, (i < L)%nat -> (j < L)%nat -> i <> j -> ~ column_below m i j.
Proof.
  unfold all_columsn_are_disjoint. rewrite negb_true_iff. rewrite <- not_true_iff_false, existsb_exists.
  assert (K : forall i j, forallb (fun r => (at1 r j =? 1)%Z) (filter (fun r => (at1 r i =? 1)%Z) m) = true <-> column_below m i j).
  { intros i j. rewrite forallb_forall. unfold column_below. split.
    - intros H r Hr Hi. apply Z.eqb_eq. apply H. apply filter_In. split; [assumption|]. apply Z.eqb_eq. assumption.
    - intros H r Hr. apply filter_In in Hr. destruct Hr as [Hr Hi]. apply Z.eqb_eq. apply H; [assumption|]. apply Z.eqb_eq. assumption. }
  split.
  - intros H i j Hi Hj Hne HB. apply H. exists (i, j). split; [|apply K; assumption].
    apply filter_In. split; [apply in_prod; apply in_seq; lia|]. cbn. destruct (Nat.eqb_spec i j); [contradiction|reflexivity].
  - intros H ([i j] & Hin & Hb). apply filter_In in Hin. destruct Hin as [Hin Hne]. apply in_prod_iff in Hin. destruct Hin as [H1 H2].
    apply in_seq in H1. apply in_seq in H2. cbn in Hne. destruct (Nat.eqb_spec i j) as [|Hd]; [discriminate|].
    apply (H i j); [lia|lia|assumption|]. apply K. assumption.
Qed.
Lemma C55_true_part m L : disjoint_columns m L -> (forall i, (i < L)%nat -> exists r, In r m /\ nth i r 0%Z = 1%Z) ->
  all_columsn_are_disjoint m L = true.
Proof.
  intros HD HN. apply C55_lemma. intros i j Hi Hj Hne HB. destruct (HN i Hi) as (r & Hr & H1).
  apply (HD r i j Hr Hi Hj Hne). split; [assumption|apply HB; assumption].
Qed.

(** * compute_bp *)
Lemma C_ratio n k : (k < n)%nat -> C n (S k) * INR (S k) = C n k * INR (n - k).
Proof.
  intros H. unfold C. replace (n - k)%nat with (S (n - S k)) by lia. rewrite !fact_simpl, !mult_INR.
  field. repeat split; try apply INR_fact_neq_0; apply not_0_INR; lia.
Qed.
Lemma C_pos n k : 0 < C n k.
Proof. unfold C. apply Rdiv_lt_0_compat; [apply INR_fact_lt_0|]. apply Rmult_lt_0_compat; apply INR_fact_lt_0. Qed.
Lemma binomial_ratio n k q : 0 < q < 1 -> (k < n)%nat ->
  binomial n (S k) q / binomial n k q = q * (INR n - INR k * 1) / ((1 - q) * (INR k * 1 + 1)) /\ 0 < binomial n k q.
Proof.
  intros Hq Hk. unfold binomial. pose proof (C_pos n k). pose proof (pow_lt q k ltac:(lra)). pose proof (pow_lt (1 - q) (n - k) ltac:(lra)).
  split; [|apply Rmult_lt_0_compat; [apply Rmult_lt_0_compat|]; assumption].
  pose proof (C_ratio n k Hk) as E. rewrite S_INR, minus_INR in E by lia.
  assert (Hk1 : 0 < INR k + 1) by (pose proof (pos_INR k); lra).
  replace (C n (S k)) with (C n k * (INR n - INR k) / (INR k + 1)).
  - replace (n - k)%nat with (S (n - S k)) by lia. cbn [pow]. pose proof (pow_lt (1 - q) (n - S k) ltac:(lra)). field. repeat split; lra.
  - apply (Rmult_eq_reg_r (INR k + 1)); [|lra]. rewrite E. field. lra.
Qed.
Lemma bp_ok q n N : 0 < q < 1 -> exists bp, List.length bp = n /\ (forall k, (k < n)%nat -> nth k bp None = Some (ln (binomial n (S k) q / binomial n k q))) /\
  compute_bp q n N 1 = Ok (if Nat.eqb N n then bp else bp ++ skipn (match n with O => (N - 1)%nat | S n' => n' end) (repeat None N)).
Proof.
  intros Hq. unfold compute_bp.
  replace (existsb _ (seq 0 n)) with false.
  - eexists. split; [|split; [|reflexivity]].
    + rewrite !map_length, seq_length. reflexivity.
    + intros k Hk. rewrite map_map. rewrite (nth_map_seq (fun k => if Rltb 0 (q * (INR n - INR k * 1) / ((1 - q) * (INR k * 1 + 1))) then Some (ln (q * (INR n - INR k * 1) / ((1 - q) * (INR k * 1 + 1)))) else None) n k None Hk).
      destruct (binomial_ratio n k q Hq Hk) as [E _]. rewrite <- E.
      destruct (Rltb_spec 0 (binomial n (S k) q / binomial n k q)) as [|G]; [reflexivity|]. exfalso. apply G. rewrite E.
      apply lt_INR in Hk. pose proof (pos_INR k). apply Rdiv_lt_0_compat; apply Rmult_lt_0_compat; lra.
  - symmetry. apply not_true_iff_false. intros E. apply existsb_exists in E. destruct E as (k & Hk & E).
    destruct (Req_EM_T ((1 - q) * (INR k * 1 + 1)) 0) as [E0|]; [|discriminate]. pose proof (pos_INR k). nra.
Qed.
Lemma C56_equal q n : 0 < q < 1 -> exists bp, compute_bp q n n 1 = Ok bp /\ List.length bp = n /\
  forall k, (k < n)%nat -> nth k bp None = Some (ln (binomial n (S k) q / binomial n k q)).
Proof. intros Hq. destruct (bp_ok q n n Hq) as (bp & H1 & H2 & E). rewrite Nat.eqb_refl in E. exists bp. auto. Qed.
Lemma C56_padded q n N : 0 < q < 1 -> (1 <= n)%nat -> N <> n -> exists bp, compute_bp q n N 1 = Ok bp /\
  List.length bp = Nat.max n (S N) /\ (forall k, (k < n)%nat -> nth k bp None = Some (ln (binomial n (S k) q / binomial n k q))) /\
  (forall k, (n <= k)%nat -> nth k bp None = None).
Proof.
  intros Hq Hn HN. destruct (bp_ok q n N Hq) as (bp & H1 & H2 & E). destruct (Nat.eqb_spec N n) as [|_]; [contradiction|].
  destruct n as [|n]; [lia|]. eexists. split; [exact E|]. split; [rewrite app_length, skipn_length, repeat_length; lia|]. split.
  - intros k Hk. rewrite app_nth1 by lia. apply H2. assumption.
  - intros k Hk. rewrite app_nth2 by lia. destruct (nth_in_or_default (k - List.length bp) (skipn n (repeat (@None R) N)) None) as [K|K]; [|exact K].
    assert (K' : In (nth (k - List.length bp) (skipn n (repeat (@None R) N)) None) (repeat None N)).
    { assert (KK : forall (l : list (option R)) x, In x (skipn n l) -> In x l).
      { intros l x Hx. rewrite <- (firstn_skipn n l). apply in_or_app. right. exact Hx. }
      apply KK. exact K. }
    apply repeat_spec in K'. exact K'.
Qed.

(** * compute_bbp *)
Lemma rising_pos a k : 0 < a -> 0 < rising a k.
Proof. intros H. induction k as [|k IH]; cbn [rising]; [lra|]. apply Rmult_lt_0_compat; [assumption|]. pose proof (pos_INR k). lra. Qed.
Lemma bb_ratio n k a b : 0 < a -> 0 < b -> (k < n)%nat ->
  beta_binomial n (S k) a b / beta_binomial n k a b = (INR n - INR k) * (INR k + a) / ((INR k + 1) * (INR n - INR k + b - 1)) /\ 0 < beta_binomial n k a b.
Proof.
  intros Ha Hb Hk. unfold beta_binomial. pose proof (C_pos n k). pose proof (rising_pos a k Ha). pose proof (rising_pos b (n - k) Hb).
  split; [|apply Rmult_lt_0_compat; [apply Rmult_lt_0_compat|]; assumption].
  pose proof (C_ratio n k Hk) as E. rewrite S_INR, minus_INR in E by lia.
  assert (Hk1 : 0 < INR k + 1) by (pose proof (pos_INR k); lra). pose proof (pos_INR k).
  replace (C n (S k)) with (C n k * (INR n - INR k) / (INR k + 1)).
  - replace (n - k)%nat with (S (n - S k)) by lia. cbn [rising]. pose proof (rising_pos b (n - S k) Hb).
    assert (Em : INR (n - S k) = INR n - INR k - 1) by (rewrite minus_INR by lia; rewrite S_INR; lra). rewrite Em.
    assert (0 <= INR n - INR k - 1) by (rewrite <- Em; apply pos_INR). field. repeat split; lra.
  - apply (Rmult_eq_reg_r (INR k + 1)); [|lra]. rewrite E. field. lra.
Qed.
Lemma C66_lemma n a b : 0 < a -> 0 < b -> b <> 1 -> exists bbp, compute_bbp n a b = Ok bbp /\ List.length bbp = S n /\
  (forall k, (k < n)%nat -> nth k bbp None = Some (ln (beta_binomial n (S k) a b / beta_binomial n k a b))) /\ nth n bbp None = None.
Proof.
  intros Ha Hb Hb1. unfold compute_bbp. replace (existsb _ (seq 0 (S n))) with false.
  - eexists. split; [reflexivity|]. split; [rewrite map_length, seq_length; reflexivity|].
    set (F := fun k : nat => let x := (INR n - INR k) * (INR k + a) / ((INR k + 1) * (INR n - INR k + b - 1)) in if Rltb 0 x then Some (ln x) else None).
    split.
    + intros k Hk. rewrite (nth_map_seq F (S n) k None) by lia. unfold F. destruct (bb_ratio n k a b Ha Hb Hk) as [E HP]. rewrite <- E. cbv zeta.
      destruct (Rltb_spec 0 (beta_binomial n (S k) a b / beta_binomial n k a b)) as [|G]; [reflexivity|]. exfalso. apply G. rewrite E.
      apply lt_INR in Hk as Hk'. pose proof (pos_INR k). assert (INR k + 1 <= INR n) by (rewrite <- S_INR; apply le_INR; lia).
      apply Rdiv_lt_0_compat; apply Rmult_lt_0_compat; lra.
    + rewrite (nth_map_seq F (S n) n None) by lia. unfold F. replace (INR n - INR n) with 0 by lra. unfold Rdiv. rewrite !Rmult_0_l.
      cbv zeta. destruct (Rltb_spec 0 0); [lra|reflexivity].
  - symmetry. apply not_true_iff_false. intros E. apply existsb_exists in E. destruct E as (k & Hk & E). apply in_seq in Hk.
    destruct (Req_EM_T ((INR k + 1) * (INR n - INR k + b - 1)) 0) as [E0|]; [|discriminate]. pose proof (pos_INR k).
    apply Rmult_integral in E0. destruct E0 as [E0|E0]; [lra|]. destruct (Nat.eq_dec k n) as [->|Hne]; [lra|].
    assert (INR k + 1 <= INR n) by (rewrite <- S_INR; apply le_INR; lia). lra.
Qed.

(** * Splitting *)
Lemma count_is n (b : nat -> bool) l : NoDup l -> (forall i, In i l <-> (i < n)%nat /\ b i = true) -> count_pos n b = List.length l.
Proof.
  intros HN HI. unfold count_pos. apply Permutation.Permutation_length. apply Permutation.NoDup_Permutation.
  - apply NoDup_filter. apply seq_NoDup.
  - assumption.
  - intros i. rewrite filter_In, in_seq, HI. split; intros [H1 H2]; split; try assumption; lia.
Qed.
Lemma map_nth_nodup (l : list nat) idx : NoDup l -> NoDup idx -> Forall (fun i => (i < List.length l)%nat) idx ->
  NoDup (map (fun k => nth k l 0%nat) idx).
Proof.
  intros Hl Hi Hf. induction Hi as [|i idx Hni Hi IH]; [constructor|]. inversion Hf as [|? ? Hlt Hf']; subst. cbn. constructor; [|apply IH; assumption].
  intros H. apply in_map_iff in H. destruct H as (j & E & Hj). rewrite Forall_forall in Hf'. specialize (Hf' j Hj).
  rewrite NoDup_nth in Hl. specialize (Hl j i Hf' Hlt E). congruence.
Qed.
Lemma positions_in f t i : In i (positions f t) <-> (i < List.length t)%nat /\ f (at1 t i) = true.
Proof. unfold positions. rewrite filter_In, in_seq. split; intros [H1 H2]; split; try assumption; lia. Qed.
Lemma positions_nodup f t : NoDup (positions f t).
Proof. apply NoDup_filter. apply seq_NoDup. Qed.
Lemma positions_count f t : List.length (positions f t) = count_pos (List.length t) (fun i => f (at1 t i)).
Proof. reflexivity. Qed.
Lemma trunc_floor x : 0 <= x -> exists S, trunc x = Z.of_nat S /\ is_floor S x.
Proof.
  intros H. destruct (trunc_nonneg x H) as [[H1 H2] H3]. apply le_IZR in H1. exists (Z.to_nat (trunc x)). split; [lia|].
  unfold is_floor. rewrite INR_IZR_INZ, Z2Nat.id by assumption. lra.
Qed.
Lemma floor_unique S S' x : is_floor S x -> is_floor S' x -> S = S'.
Proof.
  unfold is_floor. intros [A1 A2] [B1 B2]. destruct (Nat.lt_trichotomy S S') as [G|[->|G]]; [|reflexivity|];
    apply le_INR in G; rewrite S_INR in G; lra.
Qed.
Lemma training_spec t mask : List.length (training t mask) = List.length t /\
  forall i, (i < List.length t)%nat -> at1 (training t mask) i = (if nth i mask false then 0%Z else at1 t i).
Proof.
  unfold training. split; [rewrite map_length, seq_length; reflexivity|]. intros i Hi. unfold at1 at 1. apply (nth_map_seq (fun i => if nth i mask false then 0%Z else at1 t i)). assumption.
Qed.
Lemma zeros_obs t : (count_pos (List.length t) (fun i => (0 =? at1 t i)%Z) + nobs t = List.length t)%nat.
Proof.
  unfold nobs, count_pos. rewrite <- (seq_length (List.length t) 0) at 3. generalize (seq 0 (List.length t)). intros l. induction l as [|i l IH]; [reflexivity|].
  cbn [filter]. rewrite (Z.eqb_sym 0). destruct (at1 t i =? 0)%Z; cbn [negb List.length]; lia.
Qed.
Lemma p_value t split : (0 < nobs t)%nat ->
  split / (1 - IZR (count_by (Z.eqb 0) t) / INR (List.length t)) = split * INR (List.length t) / INR (nobs t).
Proof.
  intros H. pose proof (zeros_obs t) as E. unfold count_by. rewrite positions_count. rewrite <- INR_IZR_INZ.
  apply lt_0_INR in H as H'. assert (0 < INR (List.length t)) by (apply lt_0_INR; lia).
  assert (EI : INR (count_pos (List.length t) (fun i => (0 =? at1 t i)%Z)) = INR (List.length t) - INR (nobs t)).
  { rewrite <- E at 2. rewrite plus_INR. lra. }
  rewrite EI. field. repeat split; lra.
Qed.
Lemma nobs_count t : count_by (fun x => negb (x =? 0)%Z) t = Z.of_nat (nobs t).
Proof. reflexivity. Qed.
Lemma C46_lemma tensor split balanced rand idx_p idx_n tr mask : 0 <= split ->
  (balanced = true -> forall S, is_floor S (INR (nobs tensor) * split / 2) ->
     is_draw (count_pos (List.length tensor) (fun i => at1 tensor i =? 1)%Z) S idx_p /\
     is_draw (count_pos (List.length tensor) (fun i => at1 tensor i =? -1)%Z) S idx_n) ->
  split_train_test tensor split balanced rand idx_p idx_n = Ok (tr, mask) ->
  List.length tr = List.length tensor /\ List.length mask = List.length tensor /\
  (forall i, (i < List.length tensor)%nat ->
     (nth i mask false = true -> at1 tensor i <> 0%Z) /\ at1 tr i = (if nth i mask false then 0%Z else at1 tensor i)) /\
  (balanced = false -> forall i, (i < List.length tensor)%nat ->
     (nth i mask false = true <-> at1 tensor i <> 0%Z /\ rand i * INR (nobs tensor) < split * INR (List.length tensor))) /\
  (balanced = true -> exists S, is_floor S (INR (nobs tensor) * split / 2) /\
     count_pos (List.length tensor) (fun i => nth i mask false && (at1 tensor i =? 1)%Z) = S /\
     count_pos (List.length tensor) (fun i => nth i mask false && (at1 tensor i =? -1)%Z) = S).
Proof.
  intros Hs Hd E. unfold split_train_test in E. rewrite nobs_count, <- INR_IZR_INZ in E.
  destruct (_ <? 0)%Z in E; [discriminate|]. destruct balanced; cbn [negb] in E.
  - destruct (trunc_floor (INR (nobs tensor) * split * (5 / 10))) as (S & ES & HF).
    { pose proof (pos_INR (nobs tensor)). apply Rmult_le_pos; [apply Rmult_le_pos; assumption|lra]. }
    assert (HF' : is_floor S (INR (nobs tensor) * split / 2)) by (unfold is_floor in *; lra).
    rewrite ES in E. destruct (Hd eq_refl S HF') as [[P1 [P2 P3]] [N1 [N2 N3]]].
    destruct (negb _) in E; [discriminate|]. destruct (negb _) in E; [discriminate|].
    unfold choice in E. destruct (_ || _) in E; [discriminate|]. cbn [bind] in E. destruct (_ || _) in E; [discriminate|]. cbn [bind] in E.
    set (pi := map (fun k => nth k (positions (Z.eqb 1) tensor) 0%nat) idx_p) in *.
    set (ni := map (fun k => nth k (positions (Z.eqb (-1)) tensor) 0%nat) idx_n) in *.
    assert (L1 : List.length (positions (Z.eqb 1) tensor) = count_pos (List.length tensor) (fun i => at1 tensor i =? 1)%Z).
    { rewrite positions_count. unfold count_pos. f_equal. apply filter_ext. intros i. apply Z.eqb_sym. }
    assert (L2 : List.length (positions (Z.eqb (-1)) tensor) = count_pos (List.length tensor) (fun i => at1 tensor i =? -1)%Z).
    { rewrite positions_count. unfold count_pos. f_equal. apply filter_ext. intros i. apply Z.eqb_sym. }
    assert (Dp : NoDup pi) by (apply map_nth_nodup; [apply positions_nodup|assumption|rewrite L1; assumption]).
    assert (Dn : NoDup ni) by (apply map_nth_nodup; [apply positions_nodup|assumption|rewrite L2; assumption]).
    assert (Ip : forall i, In i pi -> (i < List.length tensor)%nat /\ at1 tensor i = 1%Z).
    { intros i Hi. apply in_map_iff in Hi. destruct Hi as (k & <- & Hk). rewrite Forall_forall in P2. specialize (P2 k Hk). rewrite <- L1 in P2.
      assert (K := nth_In _ 0%nat P2). apply positions_in in K. destruct K as [K1 K2]. split; [assumption|]. apply Z.eqb_eq in K2. congruence. }
    assert (In_ : forall i, In i ni -> (i < List.length tensor)%nat /\ at1 tensor i = (-1)%Z).
    { intros i Hi. apply in_map_iff in Hi. destruct Hi as (k & <- & Hk). rewrite Forall_forall in N2. specialize (N2 k Hk). rewrite <- L2 in N2.
      assert (K := nth_In _ 0%nat N2). apply positions_in in K. destruct K as [K1 K2]. split; [assumption|]. apply Z.eqb_eq in K2. congruence. }
    assert (HM : forall i, (i < List.length tensor)%nat -> (nth i (map (fun i => existsb (Nat.eqb i) ni || existsb (Nat.eqb i) pi) (seq 0 (List.length tensor))) false = true <-> In i ni \/ In i pi)).
    { intros i Hi. rewrite (nth_map_seq (fun i => existsb (Nat.eqb i) ni || existsb (Nat.eqb i) pi) (List.length tensor) i false Hi).
      rewrite orb_true_iff. rewrite !existsb_exists. split.
      - intros [(x & Hx & Ex)|(x & Hx & Ex)]; apply Nat.eqb_eq in Ex; subst; [left|right]; assumption.
      - intros [H|H]; [left|right]; exists i; (split; [assumption|apply Nat.eqb_refl]). }
    injection E as <- <-. destruct (training_spec tensor (map (fun i => existsb (Nat.eqb i) ni || existsb (Nat.eqb i) pi) (seq 0 (List.length tensor)))) as [T1 T2].
    split; [exact T1|]. split; [rewrite map_length, seq_length; reflexivity|]. split; [|split; [discriminate|]].
    + intros i Hi. split; [|apply T2; assumption]. intros H. apply HM in H; [|assumption].
      destruct H as [H|H]; [apply In_ in H|apply Ip in H]; lia.
    + intros _. exists S. split; [exact HF'|]. split.
      * rewrite (count_is _ _ pi Dp); [unfold pi; rewrite map_length; assumption|]. intros i. split.
        -- intros H. destruct (Ip i H) as [H1 H2]. split; [assumption|]. apply andb_true_iff. split; [apply HM; [assumption|right; assumption]|apply Z.eqb_eq; assumption].
        -- intros [H1 H2]. apply andb_true_iff in H2. destruct H2 as [H2 H3]. apply Z.eqb_eq in H3. apply HM in H2; [|assumption].
           destruct H2 as [H2|H2]; [apply In_ in H2; lia|assumption].
      * rewrite (count_is _ _ ni Dn); [unfold ni; rewrite map_length; assumption|]. intros i. split.
        -- intros H. destruct (In_ i H) as [H1 H2]. split; [assumption|]. apply andb_true_iff. split; [apply HM; [assumption|left; assumption]|apply Z.eqb_eq; assumption].
        -- intros [H1 H2]. apply andb_true_iff in H2. destruct H2 as [H2 H3]. apply Z.eqb_eq in H3. apply HM in H2; [|assumption].
           destruct H2 as [H2|H2]; [assumption|apply Ip in H2; lia].
  - destruct (Z.eqb_spec (Z.of_nat (nobs tensor)) 0) as [|Hpos]; [discriminate|]. rewrite p_value in E by lia.
    assert (HP : 0 < INR (nobs tensor)) by (apply lt_0_INR; lia).
    destruct (_ || _) in E; [discriminate|]. injection E as <- <-.
    set (p := split * INR (List.length tensor) / INR (nobs tensor)).
    assert (HM : forall i, (i < List.length tensor)%nat -> nth i (map (fun i => Rltb (rand i) p && negb (at1 tensor i =? 0)%Z) (seq 0 (List.length tensor))) false =
       Rltb (rand i) p && negb (at1 tensor i =? 0)%Z).
    { intros i Hi. apply (nth_map_seq (fun i => Rltb (rand i) p && negb (at1 tensor i =? 0)%Z) (List.length tensor) i false Hi). }
    destruct (training_spec tensor (map (fun i => Rltb (rand i) p && negb (at1 tensor i =? 0)%Z) (seq 0 (List.length tensor)))) as [T1 T2].
    split; [exact T1|]. split; [rewrite map_length, seq_length; reflexivity|].
    assert (HB : forall i, (i < List.length tensor)%nat -> (nth i (map (fun i => Rltb (rand i) p && negb (at1 tensor i =? 0)%Z) (seq 0 (List.length tensor))) false = true <->
       at1 tensor i <> 0%Z /\ rand i * INR (nobs tensor) < split * INR (List.length tensor))).
    { intros i Hi. rewrite HM by assumption. rewrite andb_true_iff, Rltb_true, negb_true_iff, Z.eqb_neq. unfold p.
      assert (EQ : rand i < split * INR (List.length tensor) / INR (nobs tensor) <-> rand i * INR (nobs tensor) < split * INR (List.length tensor)).
      { split; intros H.
        - apply (Rmult_lt_compat_r (INR (nobs tensor))) in H; [|assumption]. unfold Rdiv in H. rewrite Rmult_assoc, Rinv_l, Rmult_1_r in H by lra. exact H.
        - apply (Rmult_lt_reg_r (INR (nobs tensor))); [assumption|]. unfold Rdiv. rewrite Rmult_assoc, Rinv_l, Rmult_1_r by lra. exact H. }
      rewrite EQ. tauto. }
    split; [|split; [|discriminate]].
    + intros i Hi. split; [|apply T2; assumption]. intros H. apply HB in H; [tauto|assumption].
    + intros _ i Hi. apply HB. assumption.
Qed.
Lemma trunc_nonneg_Z x : 0 <= x -> (trunc x <? 0)%Z = false.
Proof. intros H. destruct (trunc_floor x H) as (S & -> & _). lia. Qed.
Lemma C46_success_lemma tensor split rand idx_p idx_n : 0 <= split ->
  ((exists r, split_train_test tensor split false rand idx_p idx_n = Ok r) <->
     (0 < nobs tensor)%nat /\ split * INR (List.length tensor) <= INR (nobs tensor)) /\
  (forall S, is_floor S (INR (nobs tensor) * split / 2) ->
   ((exists r, split_train_test tensor split true rand idx_p idx_n = Ok r) <->
     (S <= count_pos (List.length tensor) (fun i => at1 tensor i =? 1)%Z)%nat /\ (S <= count_pos (List.length tensor) (fun i => at1 tensor i =? -1)%Z)%nat /\
     (0 < count_pos (List.length tensor) (fun i => at1 tensor i =? 1)%Z)%nat /\ (0 < count_pos (List.length tensor) (fun i => at1 tensor i =? -1)%Z)%nat)).
Proof.
  intros Hs. unfold split_train_test. rewrite nobs_count, <- INR_IZR_INZ. pose proof (pos_INR (nobs tensor)) as Hn.
  rewrite trunc_nonneg_Z by (apply Rmult_le_pos; assumption). cbn [negb]. split.
  - destruct (Z.eqb_spec (Z.of_nat (nobs tensor)) 0) as [H0|H0].
    + split; [intros [r H]; discriminate|]. intros [H _]. lia.
    + assert (HP : 0 < INR (nobs tensor)) by (apply lt_0_INR; lia). rewrite p_value by lia.
      assert (P0 : 0 <= split * INR (List.length tensor) / INR (nobs tensor)).
      { apply Rmult_le_pos; [apply Rmult_le_pos; [assumption|apply pos_INR]|]. apply Rlt_le. apply Rinv_0_lt_compat. assumption. }
      assert (EQ : split * INR (List.length tensor) / INR (nobs tensor) <= 1 <-> split * INR (List.length tensor) <= INR (nobs tensor)).
      { split; intros H.
        - apply (Rmult_le_compat_r (INR (nobs tensor))) in H; [|lra]. unfold Rdiv in H. rewrite Rmult_assoc, Rinv_l, Rmult_1_r in H by lra. lra.
        - apply (Rmult_le_reg_r (INR (nobs tensor))); [assumption|]. unfold Rdiv. rewrite Rmult_assoc, Rinv_l, Rmult_1_r by lra. lra. }
      destruct (Rltb_spec (split * INR (List.length tensor) / INR (nobs tensor)) 0) as [|_]; [lra|]. cbn [orb].
      destruct (Rltb_spec 1 (split * INR (List.length tensor) / INR (nobs tensor))) as [G|G].
      * split; [intros [r H]; discriminate|]. intros [_ H]. apply EQ in H. lra.
      * split; [|intros _; eexists; reflexivity]. intros _. split; [lia|]. apply EQ. lra.
  - intros S HF. destruct (trunc_floor (INR (nobs tensor) * split * (5 / 10))) as (S' & ES & HF').
    { apply Rmult_le_pos; [apply Rmult_le_pos; assumption|lra]. }
    assert (S' = S) by (apply (floor_unique S' S (INR (nobs tensor) * split / 2)); [unfold is_floor in *; lra|assumption]). subst S'. rewrite ES.
    unfold choice, count_by.
    assert (L1 : List.length (positions (Z.eqb 1) tensor) = count_pos (List.length tensor) (fun i => at1 tensor i =? 1)%Z).
    { rewrite positions_count. unfold count_pos. f_equal. apply filter_ext. intros i. apply Z.eqb_sym. }
    assert (L2 : List.length (positions (Z.eqb (-1)) tensor) = count_pos (List.length tensor) (fun i => at1 tensor i =? -1)%Z).
    { rewrite positions_count. unfold count_pos. f_equal. apply filter_ext. intros i. apply Z.eqb_sym. }
    rewrite L1, L2. set (c1 := count_pos _ _). set (c2 := count_pos _ _).
    destruct (Z.ltb_spec (Z.of_nat S) (2 * Z.of_nat c1)) as [A1|A1]; cbn [negb]; [|split; [intros [r H]; discriminate|lia]].
    destruct (Z.ltb_spec (Z.of_nat S) (2 * Z.of_nat c2)) as [A2|A2]; cbn [negb]; [|split; [intros [r H]; discriminate|lia]].
    destruct (Z.ltb_spec (Z.of_nat S) 0); [lia|]. cbn [orb].
    destruct (Z.ltb_spec (Z.of_nat c1) (Z.of_nat S)) as [A3|A3]; cbn [bind]; [split; [intros [r H']; discriminate|lia]|].
    destruct (Z.ltb_spec (Z.of_nat c2) (Z.of_nat S)) as [A4|A4]; cbn [bind]; [split; [intros [r H']; discriminate|lia]|].
    split; [intros _; lia|intros _; eexists; reflexivity].
Qed.

Lemma NoDup_app' {A} (l1 l2 : list A) : NoDup l1 -> NoDup l2 -> (forall x, In x l1 -> In x l2 -> False) -> NoDup (l1 ++ l2).
Proof.
  induction 1 as [|x l Hx _ IH]; intros H2 HD; [assumption|]. cbn. constructor.
  - intros H. apply in_app_or in H. destruct H as [H|H]; [contradiction|]. apply (HD x); [left; reflexivity|assumption].
  - apply IH; [assumption|]. intros y H3 H4. apply (HD y); [right; assumption|assumption].
Qed.
Lemma cells_nodup N D : NoDup (cells N D).
Proof.
  unfold cells. assert (HN := seq_NoDup N 0). induction HN as [|n l Hn _ IH]; [constructor|]. cbn [list_prod].
  apply NoDup_app'.
  - apply FinFun.Injective_map_NoDup; [|apply seq_NoDup]. intros a b E. congruence.
  - exact IH.
  - intros [a b] H1 H2. apply in_map_iff in H1. destruct H1 as (d & E & _). injection E as <- <-. apply in_prod_iff in H2. tauto.
Qed.
Lemma recode_base data base N D : has_shape2 base N D -> bin2 base -> codes data base ->
  (if existsb (existsb (Z.eqb (-1))) data then data else map (map (fun x => 2 * x - 1)%Z) data) = base.
Proof.
  intros HS HB [->| ->].
  - destruct (existsb (existsb (Z.eqb (-1))) base) eqn:E; [reflexivity|].
    rewrite <- (map_id base) at 2. apply map_ext_in. intros r Hr. rewrite <- (map_id r) at 2. apply map_ext_in. intros x Hx.
    assert (HP : pm1 x). { unfold bin2 in HB. rewrite Forall_forall in HB. specialize (HB r Hr). unfold bin1 in HB. rewrite Forall_forall in HB. apply HB. assumption. }
    destruct HP as [->| ->]; [reflexivity|]. exfalso. apply not_true_iff_false in E. apply E. apply existsb_exists. exists r. split; [assumption|].
    apply existsb_exists. exists (-1)%Z. split; [assumption|reflexivity].
  - replace (existsb _ _) with false.
    + rewrite map_map. rewrite <- (map_id base) at 2. apply map_ext_in. intros r Hr. rewrite map_map. rewrite <- (map_id r) at 2. apply map_ext_in. intros x Hx.
      assert (HP : pm1 x). { unfold bin2 in HB. rewrite Forall_forall in HB. specialize (HB r Hr). unfold bin1 in HB. rewrite Forall_forall in HB. apply HB. assumption. }
      destruct HP as [->| ->]; reflexivity.
    + symmetry. apply not_true_iff_false. intros E. apply existsb_exists in E. destruct E as (r & Hr & E). apply existsb_exists in E. destruct E as (x & Hx & E).
      apply in_map_iff in Hr. destruct Hr as (r0 & <- & _). apply in_map_iff in Hx. destruct Hx as (x0 & <- & _). destruct (x0 =? 1)%Z; discriminate.
Qed.
Lemma zero_fold l N D : forall m, has_shape2 m N D -> Forall (fun c => (fst c < N)%nat /\ (snd c < D)%nat) l ->
  let out := fold_left (fun d (ij : nat * nat) => set2 d (fst ij) (snd ij) 0%Z) l m in
  has_shape2 out N D /\ forall n d, (In (n, d) l -> at2 out n d = 0%Z) /\ (~ In (n, d) l -> at2 out n d = at2 m n d).
Proof.
  induction l as [|[a b] l IH]; intros m HS HF; cbn [fold_left fst snd].
  - split; [assumption|]. intros n d. split; [intros []|reflexivity].
  - inversion HF as [|? ? [Ha Hb] HF']; subst. cbn [fst snd] in Ha, Hb.
    destruct (IH (set2 m a b 0%Z) (set2_shape m N D a b 0%Z HS) HF') as [I1 I2]. split; [exact I1|]. intros n d. destruct (I2 n d) as [J1 J2].
    destruct (in_dec (fun x y : nat * nat => ltac:(decide equality; apply Nat.eq_dec)) (n, d) l) as [Hin|Hin].
    + split; [intros _; apply J1; assumption|]. intros H. exfalso. apply H. right. assumption.
    + rewrite J2 by assumption. split.
      * intros [E|E]; [|contradiction]. injection E as -> ->. apply (at2_set2_same m N D); assumption.
      * intros H. apply at2_set2_other. intros E. apply H. left. assumption.
Qed.
Lemma C47_lemma data base N D p idx_t idx_f k : has_shape2 base N D -> (0 < N)%nat -> bin2 base -> codes data base -> 0 <= p ->
  is_floor k (INR (N * D) * p / 2) ->
  let ones := count_cells N D (fun n d => at2 base n d =? 1)%Z in
  let minus := count_cells N D (fun n d => at2 base n d =? -1)%Z in
  ((k <= ones)%nat -> (k <= minus)%nat -> is_draw ones k idx_t -> is_draw minus k idx_f ->
   exists out, split_test_train data p idx_t idx_f = Ok out /\ has_shape2 out N D /\
     (forall n d, (n < N)%nat -> (d < D)%nat -> at2 out n d = 0%Z \/ at2 out n d = at2 base n d) /\
     count_cells N D (fun n d => (at2 out n d =? 0)%Z && (at2 base n d =? 1)%Z) = k /\
     count_cells N D (fun n d => (at2 out n d =? 0)%Z && (at2 base n d =? -1)%Z) = k) /\
  ((ones < k)%nat \/ (minus < k)%nat -> split_test_train data p idx_t idx_f = Err ValueError).
Proof.
  intros HS HN HB HC Hp HF. cbv zeta. unfold split_test_train. rewrite (recode_base data base N D HS HB HC). cbv zeta.
  replace (nrows base) with N by (symmetry; apply HS).
  replace (ncols base) with D.
  2:{ destruct HS as [H1 H2]. destruct base as [|r base]; [cbn in H1; lia|]. inversion H2; subst. reflexivity. }
  fold (cells N D).
  destruct (trunc_floor (INR (N * D) * p / 2)) as (k' & Ek & HF').
  { pose proof (pos_INR (N * D)). unfold Rdiv. apply Rmult_le_pos; [apply Rmult_le_pos; assumption|lra]. }
  rewrite (floor_unique _ _ _ HF' HF) in Ek. rewrite Ek.
  set (T := filter (fun x => at2 base (fst x) (snd x) =? 1)%Z (cells N D)).
  set (F := filter (fun x => at2 base (fst x) (snd x) =? -1)%Z (cells N D)).
  change (count_cells N D (fun n d => (at2 base n d =? 1)%Z)) with (List.length T).
  change (count_cells N D (fun n d => (at2 base n d =? -1)%Z)) with (List.length F).
  unfold choice. destruct (Z.ltb_spec (Z.of_nat k) 0); [lia|]. cbn [orb]. split.
  - intros K1 K2 (D1 & D2 & D3) (E1 & E2 & E3).
    destruct (Z.ltb_spec (Z.of_nat (List.length T)) (Z.of_nat k)); [lia|]. destruct (Z.ltb_spec (Z.of_nat (List.length F)) (Z.of_nat k)); [lia|].
    cbn [bind]. set (ti := map (fun i => nth i T (0, 0)%nat) idx_t). set (fi := map (fun i => nth i F (0, 0)%nat) idx_f).
    assert (NT : NoDup T) by (apply NoDup_filter, cells_nodup). assert (NF : NoDup F) by (apply NoDup_filter, cells_nodup).
    assert (GN : forall (l : list (nat * nat)) idx, NoDup l -> NoDup idx -> Forall (fun i => (i < List.length l)%nat) idx -> NoDup (map (fun i => nth i l (0, 0)%nat) idx)).
    { clear. intros l idx Hl Hi Hf. induction Hi as [|i idx Hni Hi IH]; [constructor|]. inversion Hf as [|? ? Hlt Hf']; subst. cbn. constructor; [|apply IH; assumption].
      intros H. apply in_map_iff in H. destruct H as (j & E & Hj). rewrite Forall_forall in Hf'. specialize (Hf' j Hj).
      rewrite NoDup_nth in Hl. specialize (Hl j i Hf' Hlt E). congruence. }
    assert (It : forall c, In c ti -> In c T). { intros c Hc. apply in_map_iff in Hc. destruct Hc as (i & <- & Hi). apply nth_In. rewrite Forall_forall in D2. apply D2. assumption. }
    assert (If_ : forall c, In c fi -> In c F). { intros c Hc. apply in_map_iff in Hc. destruct Hc as (i & <- & Hi). apply nth_In. rewrite Forall_forall in E2. apply E2. assumption. }
    assert (HT : forall n d, In (n, d) T <-> ((n < N)%nat /\ (d < D)%nat) /\ at2 base n d = 1%Z).
    { intros n d. unfold T. rewrite filter_In, in_cells2. cbn [fst snd]. rewrite Z.eqb_eq. tauto. }
    assert (HFF : forall n d, In (n, d) F <-> ((n < N)%nat /\ (d < D)%nat) /\ at2 base n d = (-1)%Z).
    { intros n d. unfold F. rewrite filter_In, in_cells2. cbn [fst snd]. rewrite Z.eqb_eq. tauto. }
    assert (HR : Forall (fun c : nat * nat => (fst c < N)%nat /\ (snd c < D)%nat) (ti ++ fi)).
    { apply Forall_forall. intros [n d] Hc. apply in_app_or in Hc. cbn [fst snd]. destruct Hc as [Hc|Hc]; [apply It in Hc; apply HT in Hc|apply If_ in Hc; apply HFF in Hc]; tauto. }
    destruct (zero_fold (ti ++ fi) N D base HS HR) as [Z1 Z2]. cbv zeta in Z1, Z2. eexists. split; [reflexivity|]. split; [exact Z1|].
    assert (HZ : forall n d, (n < N)%nat -> (d < D)%nat -> (at2 (fold_left (fun d (ij : nat * nat) => set2 d (fst ij) (snd ij) 0%Z) (ti ++ fi) base) n d = 0%Z <-> In (n, d) (ti ++ fi))).
    { intros n d Hn Hd. destruct (Z2 n d) as [Y1 Y2]. split; [|exact Y1]. intros E.
      destruct (in_dec (fun x y : nat * nat => ltac:(decide equality; apply Nat.eq_dec)) (n, d) (ti ++ fi)) as [Hin|Hin]; [assumption|].
      rewrite Y2 in E by assumption. assert (P := bin2_at base N D n d HS HB Hn Hd). destruct P; lia. }
    split; [|split].
    + intros n d Hn Hd. destruct (in_dec (fun x y : nat * nat => ltac:(decide equality; apply Nat.eq_dec)) (n, d) (ti ++ fi)) as [Hin|Hin].
      * left. apply Z2. assumption.
      * right. apply Z2. assumption.
    + transitivity (List.length ti); [|unfold ti; rewrite map_length; assumption]. unfold count_cells. apply Permutation.Permutation_length. apply Permutation.NoDup_Permutation.
      * apply NoDup_filter, cells_nodup.
      * apply GN; assumption.
      * intros [n d]. rewrite filter_In, in_cells2. cbn [fst snd]. rewrite andb_true_iff, !Z.eqb_eq. split.
        -- intros [[Hn Hd] [E0 E1']]. apply HZ in E0; [|assumption|assumption]. apply in_app_or in E0. destruct E0 as [E0|E0]; [assumption|]. apply If_ in E0. apply HFF in E0. lia.
        -- intros Hc. assert (Hc' := It _ Hc). apply HT in Hc'. destruct Hc' as [[Hn Hd] E]. split; [tauto|]. split; [|assumption]. apply HZ; [assumption|assumption|]. apply in_or_app. left. assumption.
    + transitivity (List.length fi); [|unfold fi; rewrite map_length; assumption]. unfold count_cells. apply Permutation.Permutation_length. apply Permutation.NoDup_Permutation.
      * apply NoDup_filter, cells_nodup.
      * apply GN; assumption.
      * intros [n d]. rewrite filter_In, in_cells2. cbn [fst snd]. rewrite andb_true_iff, !Z.eqb_eq. split.
        -- intros [[Hn Hd] [E0 E1']]. apply HZ in E0; [|assumption|assumption]. apply in_app_or in E0. destruct E0 as [E0|E0]; [|assumption]. apply It in E0. apply HT in E0. lia.
        -- intros Hc. assert (Hc' := If_ _ Hc). apply HFF in Hc'. destruct Hc' as [[Hn Hd] E]. split; [tauto|]. split; [|assumption]. apply HZ; [assumption|assumption|]. apply in_or_app. right. assumption.
  - intros H0. destruct (Z.ltb_spec (Z.of_nat (List.length T)) (Z.of_nat k)); [reflexivity|]. cbn [bind].
    destruct (Z.ltb_spec (Z.of_nat (List.length F)) (Z.of_nat k)); [reflexivity|]. lia.
Qed.

(** * Counterexamples and examples *)
Lemma C45_long_lemma u : 0 <= u < 1 -> let p := repeat 0 127 ++ [1] in
  Forall (fun x => 0 <= x) p /\ Rsum (fun x => x) p = 1 /\ random_choice p u = (-128)%Z.
Proof.
  intros Hu. cbv zeta. split; [|split].
  - apply Forall_app. split; [apply Forall_forall; intros x Hx; apply repeat_spec in Hx; lra|repeat constructor; lra].
  - assert (G : forall k, Rsum (fun x => x) (repeat 0 k ++ [1]) = 1). { induction k as [|k IH]; cbn [repeat app]; [cbn; lra|]. unfold Rsum in *; cbn [map fold_right] in *. rewrite IH. lra. } apply G.
  - assert (G : forall k i, choice_loop u (repeat 0 k ++ [1]) i 0 = Some (i + S k)%nat).
    { induction k as [|k IH]; intros i; cbn [repeat app choice_loop].
      - unfold Rltb. destruct (Rlt_dec u (0 + 1)); [f_equal; lia|lra].
      - unfold Rltb. destruct (Rlt_dec u (0 + 0)); [lra|]. rewrite Rplus_0_l. rewrite IH. f_equal. lia. }
    unfold random_choice. rewrite G. reflexivity.
Qed.
Lemma C49_ignored_lemma {G : Type} (next : G -> R * G) reseed randint X p s1 s2 g :
  noise_2d_call next reseed randint X p (Some s1) g = noise_2d_call next reseed randint X p (Some s2) g.
Proof. reflexivity. Qed.
Lemma C49_refuted_lemma : exists (G : Type) (next : G -> R * G) reseed randint X p seed g1 g2,
  noise_2d_call next reseed randint X p (Some seed) g1 <> noise_2d_call next reseed randint X p (Some seed) g2.
Proof.
  exists bool, (fun b : bool => (if b then 0 else 1 / 2, b)), (fun _ => true), (fun b => (0%nat, b)), [[1%Z]], (1 / 2), 7%nat, true, false.
  apply (C49_lemma _ _ _ _ _ 1 1 _ _ _ 0 0).
  - split; [reflexivity|repeat constructor].
  - lia.
  - lia.
  - cbn. lia.
  - cbn. lra.
Qed.
Lemma C55_refuted_lemma :
  all_columsn_are_disjoint [[1; 1]; [1; -1]; [-1; 1]]%Z 2 = true /\ ~ disjoint_columns [[1; 1]; [1; -1]; [-1; 1]]%Z 2 /\
  all_columsn_are_disjoint [[1; -1]]%Z 2 = false /\ disjoint_columns [[1; -1]]%Z 2.
Proof.
  split; [reflexivity|]. split; [|split; [reflexivity|]].
  - intros H. apply (H [1; 1]%Z 0%nat 1%nat); cbn; auto; lia.
  - intros r i j [<-|[]] Hi Hj Hij [H1 H2]. destruct i as [|[|?]], j as [|[|?]]; cbn in H1, H2; lia.
Qed.
Lemma C66_refuted_lemma n a : 0 < a -> compute_bbp n a 1 = Err ZeroDivisionError.
Proof.
  intros _. unfold compute_bbp. replace (existsb _ _) with true; [reflexivity|]. symmetry. apply existsb_exists. exists n. split; [apply in_seq; lia|].
  destruct (Req_EM_T _ 0) as [E|E]; [reflexivity|]. exfalso. apply E. ring.
Qed.

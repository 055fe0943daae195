(** Examples and refutation for fuzzy outputs in double precision. *)
From Coq Require Import Lra Psatz String ZifyBool.
From Verif Require Import BaseLemmas Base BaseR Spec SpecF SpecFloat Fuzzy FuzzyProofs OutputsProofs DensityProofs FloatFuzzy FloatProofs FloatProofs2 FloatProofs3 FloatProofs4 FloatProofs5 FloatProofs6 FloatProofs7.
From Flocq Require Import Core.
Local Open Scope R_scope.

Lemma C114_refuted_lemma : let z := [double_prob [1; 1; 1]%Z] in let v := [double_prob [-1; -1; 1]%Z] in
  probs z /\ probs v /\ Forall is_double z /\ Forall is_double v /\
  exists f g, a_output_3d double "XOR-XOR" = Some f /\ a_output_3d double "XOR-NXOR" = Some g /\
  f z z v = - (5 * roundoff) /\ g z z v = 1 + 4 * roundoff /\ f z z v < 0 /\ 1 < g z z v.
Proof.
  cbv zeta. assert (G : forall xs, List.length xs = 3%nat -> samples xs -> 0 <= double_prob xs <= 1 /\ is_double (double_prob xs)).
  { intros xs H S. destruct (C115_prob_lemma xs S ltac:(rewrite H; lia)) as (_ & R & D & _). split; assumption. }
  destruct (G [1; 1; 1]%Z eq_refl ltac:(repeat constructor; lia)) as (R1 & D1). destruct (G [-1; -1; 1]%Z eq_refl ltac:(repeat constructor; lia)) as (R2 & D2).
  split; [constructor; [exact R1|constructor]|]. split; [constructor; [exact R2|constructor]|]. split; [constructor; [exact D1|constructor]|]. split; [constructor; [exact D2|constructor]|].
  destruct negative_lemma as (f & g & Ef & Eg & F & G'). exists f, g. split; [exact Ef|]. split; [exact Eg|]. unfold roundoff. rewrite F, G'. fold eps. pose proof eps_pos. repeat split; lra.
Qed.
Lemma C114_range3_lemma o i : In (o, i) implemented -> i = AND \/ i = NAND -> exists f, a_output_3d double (model_name o i) = Some f /\
  forall z u v L, List.length z = L -> List.length u = L -> List.length v = L -> probs z -> probs u -> probs v -> 0 <= f z u v /\ (o <> XOR -> f z u v <= 1).
Proof. apply range3. Qed.
Lemma dyadic m e : (Z.abs m < 2 ^ 53)%Z -> (-1074 <= e)%Z -> is_double (IZR m * powerRZ 2 e).
Proof. intros H H'. exists m, e. auto. Qed.
Lemma C114_example_lemma : let z := [1 / 2; 1 / 4] in let u := [1; 3 / 8] in probs z /\ probs u /\ Forall is_double z /\ Forall is_double u /\
  exists p, is_prob XOR AND 2 2 (fun k l => nth l (nth k [z; u] []) 0) p /\ p = 1 / 2.
Proof.
  cbv zeta. assert (D : forall m e x, (Z.abs m < 2 ^ 53)%Z -> (-1074 <= e)%Z -> x = IZR m * powerRZ 2 e -> is_double x) by (intros m e x H H' ->; apply dyadic; assumption).
  split; [repeat constructor; lra|]. split; [repeat constructor; lra|]. split; [|split].
  - constructor; [apply (D 1%Z (-1)%Z); [lia|lia|simpl; field]|constructor; [apply (D 1%Z (-2)%Z); [lia|lia|simpl; field]|constructor]].
  - constructor; [apply (D 1%Z 0%Z); [lia|lia|simpl; field]|constructor; [apply (D 3%Z (-3)%Z); [lia|lia|simpl; field]|constructor]].
  - eexists. split; [apply prob_fuzz|]. unfold fuzz. cbn. lra.
Qed.
Lemma C114_certain_example_lemma : lom_output XOR AND [[1; -1]%Z; [1; 1]%Z] 2 1 /\ certain [1; -1]%Z = [1; 0].
Proof.
  split; [|reflexivity]. unfold lom_output.
  apply lom_output_b. reflexivity.
Qed.
Lemma C115_example_lemma : samples [1; 1; -1]%Z /\ share [1; 1; -1]%Z = 2 / 3 /\ double_map [1; 1; -1]%Z = 1%Z /\ double_map [1; -1]%Z = (-1)%Z /\ double_prob [-1; -1; 1]%Z <> share [-1; -1; 1]%Z.
Proof.
  split; [repeat constructor; lia|]. split; [unfold share, hits; cbn; lra|]. split; [apply (C115_map_lemma [1; 1; -1]%Z); [repeat constructor; lia|cbn; lia|cbn; lia]|].
  split; [apply (C115_map_lemma [1; -1]%Z); [repeat constructor; lia|cbn; lia|cbn; lia]|]. rewrite third. unfold share, hits. cbn. pose proof q_val. lra.
Qed.
Lemma C115_output_example_lemma : let zs := [[1; 1; -1]; [-1; 1; 1]]%Z in let us := [[1; 1; 1]; [1; -1; -1]]%Z in
  Forall (fun xs => samples xs /\ (1 <= Z.of_nat (List.length xs) <= 2 ^ 53)%Z) (zs ++ us) /\
  exists p, is_prob OR AND 2 2 (fun k l => nth l (nth k [map share zs; map share us] []) 0) p /\ p = 20 / 27.
Proof.
  cbv zeta. split; [repeat constructor; cbn; lia|]. eexists. split; [apply prob_fuzz|]. cbn [map]. replace (share [1; 1; -1]%Z) with (2 / 3) by (unfold share, hits; simpl; field). replace (share [-1; 1; 1]%Z) with (2 / 3) by (unfold share, hits; simpl; field). replace (share [1; 1; 1]%Z) with 1 by (unfold share, hits; simpl; field). replace (share [1; -1; -1]%Z) with (1 / 3) by (unfold share, hits; simpl; field). unfold fuzz. cbn [flop map seq nth]. unfold fuzzy_fn_OR, fuzzy_fn_AND, Rprod. simpl. lra.
Qed.

(** The updates made during inference are the reference sweeps of the current state. *)
From Coq Require Import String Permutation Lra.
From Verif Require Import Base BaseR BaseLemmas Spec SpecR Outputs Fuzzy Scores Sampling SamplingProofs HierProofs Lambda LambdaProofs Clean Machine Dispatch Inference SpecMachine MachineProofs MachineProofs2 BuiltProofs InferenceProofs InferenceProofs2 InferenceProofs3 InferenceProofs6 PreserveProofs PlainProofs DispatchProofs.
Local Open Scope R_scope.

Lemma run_inplace o w i f Z' : stored w -> (i < List.length (mats w))%nat -> sfct (get_mat w i) = Some f -> compute o w i f = Ok (InPlace Z') -> updates_to o w i Z'.
Proof.
  intros ST Hi Ef Ec. unfold updates_to, run_mat. rewrite Ef. cbn [of_option bind]. rewrite Ec. cbn [bind apply_effect]. eexists. split; [reflexivity|]. split; [|split; [reflexivity|split; [reflexivity|split; [reflexivity|]]]].
  - unfold value, tick, get_mat. cbn [mats write set_arrays]. fold (get_mat w i). change (get_arr _ (val (get_mat w i))) with (get_arr (write w (val (get_mat w i)) (A2 Z')) (val (get_mat w i))).
    rewrite get_arr_write by (apply stored_val; assumption). rewrite Nat.eqb_refl. reflexivity.
  - intros a Ha. change (get_arr (tick ?w) a) with (get_arr w a). rewrite get_arr_write by (apply stored_val; assumption). rewrite (proj2 (Nat.eqb_neq _ _) Ha). reflexivity.
Qed.
(** The closure in place. *)
Lemma set_up_closure w i w' l : set_up w i w' -> layer_of (get_mat w' i) = Some l -> (i < List.length (mats w'))%nat -> In (model (get_lay w' l)) standard_models ->
  (List.length (factors (get_lay w' l)) = 2%nat \/ parents (get_mat w' i) = []) ->
  (forall p, In p (parents (get_mat w' i)) -> List.length (factors (get_lay w' p)) = 2%nat /\ In (model (get_lay w' p)) standard_models) ->
  exists f, sfct (get_mat w' i) = Some f /\ stored w' /\
  f = let m := model (get_lay w' l) in let order := transpose_order w' i in let p := bprior (get_mat w i) in
  match parents (get_mat w' i) with
  | [] => if Nat.eqb (List.length (factors (get_lay w' l))) 2 then FLom m order p else FLom3 m order p
  | [a] => F11 m (model (get_lay w' a)) order p
  | a :: b :: _ => F12 m (model (get_lay w' a)) (model (get_lay w' b)) order p
  end.
Proof.
  intros (E0 & w1 & E1 & ED & ES) HL Hi HM H2 HP.
  assert (K : kin w w') by (eapply kin_trans; [apply kin_unassigned; eapply assign_mat_unassigned; exact E1|apply kin_edited; exact ED]).
  destruct (kin_mat _ _ K i) as (_ & kl & kp). destruct (kin_lay _ _ K l) as (kf & km). rewrite kl in HL. rewrite km in HM. rewrite kf, kp in H2.
  assert (G : get_sampling_fct w i = Ok (w, new_closure w i l)).
  { apply new_closure_ok; try assumption. intros p Hp. rewrite <- kp in Hp. destruct (HP p Hp) as (G1 & G2). destruct (kin_lay _ _ K p) as (k1 & k2). rewrite k1 in G1. rewrite k2 in G2. auto. }
  unfold assign_mat in E1. rewrite G in E1. cbn [bind] in E1. injection E1 as <-. exists (new_closure w i l). split; [|split; [apply ED|]].
  - rewrite ES. rewrite get_mat_set, Nat.eqb_refl. cbn [andb]. replace (Nat.ltb i (List.length (mats w))) with true; [reflexivity|]. symmetry. apply Nat.ltb_lt. destruct ED as (Lm & _). rewrite Lm in Hi. unfold set_mat, set_mats in Hi. cbn [mats] in Hi. rewrite upd_length in Hi. exact Hi.
  - unfold new_closure. cbv zeta. rewrite kp, kf, km, (kin_order _ _ _ K). destruct (parents (get_mat w i)) as [|a [|b t]]; try reflexivity.
    + destruct (kin_lay _ _ K a) as (_ & ->). reflexivity.
    + destruct (kin_lay _ _ K a) as (_ & ->). destruct (kin_lay _ _ K b) as (_ & ->). reflexivity.
Qed.
Lemma l2_order w l f g N D L A B X x : layer2 w l f g N D L A B X x ->
  siblings w f = [g] /\ siblings w g = [f] /\ transpose_order w f = [0; 1]%nat /\ transpose_order w g = [1; 0]%nat.
Proof.
  intros [(_ & EF & Hn) ((_ & af & lf) & (_ & ag & lg)) _ _]. unfold transpose_order.
  assert (S1 : siblings w f = [g]) by (unfold siblings; rewrite lf, EF; cbn [filter]; rewrite Nat.eqb_refl, (proj2 (Nat.eqb_neq g f)) by auto; reflexivity).
  assert (S2 : siblings w g = [f]) by (unfold siblings; rewrite lg, EF; cbn [filter]; rewrite Nat.eqb_refl, (proj2 (Nat.eqb_neq f g)) by auto; reflexivity).
  rewrite S1, S2. cbn [map]. unfold axis_of. rewrite af, ag. auto.
Qed.
Lemma l3_order w l f g h N D M L A B C X x : layer3 w l f g h N D M L A B C X x ->
  (siblings w f = [g; h] /\ transpose_order w f = [0; 1; 2]%nat) /\ (siblings w g = [f; h] /\ transpose_order w g = [1; 0; 2]%nat) /\ (siblings w h = [f; g] /\ transpose_order w h = [2; 0; 1]%nat).
Proof.
  intros [(_ & EF & ND) ((_ & af & lf) & (_ & ag & lg) & (_ & ah & lh)) _ _]. inversion ND as [|? ? N1 ND1]; subst. inversion ND1 as [|? ? N2 _]; subst. cbn [In] in N1, N2.
  assert (Hfg : f <> g) by (intros ->; tauto). assert (Hfh : f <> h) by (intros ->; tauto). assert (Hgh : g <> h) by (intros ->; tauto).
  unfold transpose_order, siblings. rewrite lf, lg, lh, EF. cbn [filter]. rewrite !Nat.eqb_refl, (proj2 (Nat.eqb_neq g f)), (proj2 (Nat.eqb_neq h f)), (proj2 (Nat.eqb_neq f g)), (proj2 (Nat.eqb_neq h g)), (proj2 (Nat.eqb_neq f h)), (proj2 (Nat.eqb_neq g h)) by auto.
  cbn [negb map]. unfold axis_of. rewrite af, ag, ah. auto.
Qed.
Lemma readE w i m : value w i = A2 m -> read2 w i = Ok m.
Proof. unfold read2. intros ->. reflexivity. Qed.

(** Two factors *)
Lemma compute2 orc w l f g N D L A B X x n p F : layer2 w l f g N D L A B X x ->
  (fixed_entries (get_mat w f) = A2 F -> compute orc w f (FLom n (transpose_order w f) p) = bind (LOM_sampler_2d n 0 A B F X x p (o_cell orc (clock w))) (fun Z' => Ok (InPlace Z'))) /\
  (fixed_entries (get_mat w g) = A2 F -> compute orc w g (FLom n (transpose_order w g) p) = bind (LOM_sampler_2d n 1 A B F X x p (o_cell orc (clock w))) (fun Z' => Ok (InPlace Z'))).
Proof.
  intros H. destruct (l2_order _ _ _ _ _ _ _ _ _ _ _ H) as (S1 & S2 & T1 & T2). destruct H as [_ ((_ & _ & lf) & (_ & _ & lg)) (vf & vg & vx & vl) _]. unfold disp in vl.
  split; intros EF; unfold compute; cbv zeta; [rewrite (readE _ _ _ vf)|rewrite (readE _ _ _ vg)]; cbn [bind]; rewrite EF; cbn [as2 bind]; unfold own_layer, pick.
  - rewrite lf, S1, T1. cbn [bind nth_error of_option]. rewrite (readE _ _ _ vg), vx, vl. reflexivity.
  - rewrite lg, S2, T2. cbn [bind nth_error of_option]. rewrite (readE _ _ _ vf), vx, vl. reflexivity.
Qed.
Lemma compute3 orc w l f g h N D M L A B C X x n p F : layer3 w l f g h N D M L A B C X x ->
  (fixed_entries (get_mat w f) = A2 F -> compute orc w f (FLom3 n (transpose_order w f) p) = bind (LOM_sampler_3d n 0 A B C F X x p (o_cell orc (clock w))) (fun Z' => Ok (InPlace Z'))) /\
  (fixed_entries (get_mat w g) = A2 F -> compute orc w g (FLom3 n (transpose_order w g) p) = bind (LOM_sampler_3d n 1 A B C F X x p (o_cell orc (clock w))) (fun Z' => Ok (InPlace Z'))) /\
  (fixed_entries (get_mat w h) = A2 F -> compute orc w h (FLom3 n (transpose_order w h) p) = bind (LOM_sampler_3d n 2 A B C F X x p (o_cell orc (clock w))) (fun Z' => Ok (InPlace Z'))).
Proof.
  intros H. destruct (l3_order _ _ _ _ _ _ _ _ _ _ _ _ _ _ H) as ((S1 & T1) & (S2 & T2) & (S3 & T3)). destruct H as [_ ((_ & _ & lf) & (_ & _ & lg) & (_ & _ & lh)) (vf & vg & vh & vx & vl) _]. unfold disp in vl.
  split; [|split]; intros EF; unfold compute; cbv zeta; [rewrite (readE _ _ _ vf)|rewrite (readE _ _ _ vg)|rewrite (readE _ _ _ vh)]; cbn [bind]; rewrite EF; cbn [as2 bind]; unfold own_layer, pick.
  - rewrite lf, S1, T1. cbn [bind nth_error of_option]. rewrite (readE _ _ _ vg), (readE _ _ _ vh), vx, vl. reflexivity.
  - rewrite lg, S2, T2. cbn [bind nth_error of_option]. rewrite (readE _ _ _ vf), (readE _ _ _ vh), vx, vl. reflexivity.
  - rewrite lh, S3, T3. cbn [bind nth_error of_option]. rewrite (readE _ _ _ vf), (readE _ _ _ vg), vx, vl. reflexivity.
Qed.
Lemma parent_argsE w i k p a b N D L A B X x : nth_error (parents (get_mat w i)) k = Some p -> layer2 w p a b N D L A B X x -> parent_args w i k = Ok (A, B, x).
Proof.
  intros Hk [(_ & EF & _) _ (va & vb & _ & vl) _]. unfold parent_args, pick. rewrite Hk. cbn [of_option bind]. rewrite EF. cbn [nth_error of_option bind]. rewrite (readE _ _ _ va), (readE _ _ _ vb). cbn [bind]. rewrite vl. reflexivity.
Qed.
Lemma compute11 orc w l f g N D L A B X x n pn p F : layer2 w l f g N D L A B X x ->
  (forall a1 a2 la, fixed_entries (get_mat w f) = A2 F -> parent_args w f 0 = Ok (a1, a2, la) -> compute orc w f (F11 n pn (transpose_order w f) p) = bind (LOM_sampler_1c1p_2d n pn 0 A B F X x a1 a2 la p (o_cell orc (clock w))) (fun Z' => Ok (InPlace Z'))) /\
  (forall a1 a2 la, fixed_entries (get_mat w g) = A2 F -> parent_args w g 0 = Ok (a1, a2, la) -> compute orc w g (F11 n pn (transpose_order w g) p) = bind (LOM_sampler_1c1p_2d n pn 1 A B F X x a1 a2 la p (o_cell orc (clock w))) (fun Z' => Ok (InPlace Z'))).
Proof.
  intros H. destruct (l2_order _ _ _ _ _ _ _ _ _ _ _ H) as (S1 & S2 & T1 & T2). destruct H as [_ ((_ & _ & lf) & (_ & _ & lg)) (vf & vg & vx & vl) _]. unfold disp in vl.
  split; intros a1 a2 la EF EP; unfold compute; cbv zeta; [rewrite (readE _ _ _ vf)|rewrite (readE _ _ _ vg)]; cbn [bind]; rewrite EF; cbn [as2 bind]; unfold own_layer, pick.
  - rewrite lf, S1, T1. cbn [bind nth_error of_option]. rewrite (readE _ _ _ vg), vx, vl. cbn [bind child2 scalar axis2]. rewrite EP. reflexivity.
  - rewrite lg, S2, T2. cbn [bind nth_error of_option]. rewrite (readE _ _ _ vf), vx, vl. cbn [bind child2 scalar axis2]. rewrite EP. reflexivity.
Qed.
Lemma compute12 orc w l f g N D L A B X x n pn pn' p F : layer2 w l f g N D L A B X x ->
  (forall a1 a2 la b1 b2 lb, fixed_entries (get_mat w f) = A2 F -> parent_args w f 0 = Ok (a1, a2, la) -> parent_args w f 1 = Ok (b1, b2, lb) -> compute orc w f (F12 n pn pn' (transpose_order w f) p) = bind (LOM_sampler_1c2p_2d n pn pn' 0 A B F X x a1 a2 la b1 b2 lb p (o_cell orc (clock w))) (fun Z' => Ok (InPlace Z'))) /\
  (forall a1 a2 la b1 b2 lb, fixed_entries (get_mat w g) = A2 F -> parent_args w g 0 = Ok (a1, a2, la) -> parent_args w g 1 = Ok (b1, b2, lb) -> compute orc w g (F12 n pn pn' (transpose_order w g) p) = bind (LOM_sampler_1c2p_2d n pn pn' 1 A B F X x a1 a2 la b1 b2 lb p (o_cell orc (clock w))) (fun Z' => Ok (InPlace Z'))).
Proof.
  intros H. destruct (l2_order _ _ _ _ _ _ _ _ _ _ _ H) as (S1 & S2 & T1 & T2). destruct H as [_ ((_ & _ & lf) & (_ & _ & lg)) (vf & vg & vx & vl) _]. unfold disp in vl.
  split; intros a1 a2 la b1 b2 lb EF EP EQ; unfold compute; cbv zeta; [rewrite (readE _ _ _ vf)|rewrite (readE _ _ _ vg)]; cbn [bind]; rewrite EF; cbn [as2 bind]; unfold own_layer, pick.
  - rewrite lf, S1, T1. cbn [bind nth_error of_option]. rewrite (readE _ _ _ vg), vx, vl. cbn [bind child2 scalar axis2]. rewrite EP. cbn [bind]. rewrite EQ. reflexivity.
  - rewrite lg, S2, T2. cbn [bind nth_error of_option]. rewrite (readE _ _ _ vf), vx, vl. cbn [bind child2 scalar axis2]. rewrite EP. cbn [bind]. rewrite EQ. reflexivity.
Qed.

(** ** The theorems *)
Section Gibbs.
Context (orc : oracle) (o i : lop) (Hoi : In (o, i) implemented) (out : list vec -> nat -> Z) (Hout : is_output o i out).
Lemma C74_2_lemma w0 w l f g N D L A B X x F pB : layer2 w l f g N D L A B X x -> model (get_lay w l) = model_name o i -> 0 < pB < 1 ->
  (set_up w0 f w -> parents (get_mat w f) = [] -> fixed_entries (get_mat w f) = A2 F -> 0 < bprior (get_mat w0 f) < 1 -> (Z.of_nat D <= 32767)%Z -> draws_ok (o_cell orc (clock w)) N L ->
     updates_to orc w f (ref_sweep (fun A' => post2 out x X N D L (bprior (get_mat w0 f)) pB A' B) F (o_cell orc (clock w)) N L A)) /\
  (set_up w0 g w -> parents (get_mat w g) = [] -> fixed_entries (get_mat w g) = A2 F -> 0 < bprior (get_mat w0 g) < 1 -> (Z.of_nat N <= 32767)%Z -> draws_ok (o_cell orc (clock w)) D L ->
     updates_to orc w g (ref_sweep (fun B' => post2 out x X N D L pB (bprior (get_mat w0 g)) A B') F (o_cell orc (clock w)) D L B)).
Proof.
  intros H EM Hp. pose proof (implemented_standard _ _ Hoi) as HS. rewrite <- EM in HS. destruct (compute2 orc w l f g N D L A B X x (model_name o i) (bprior (get_mat w0 f)) F H) as (C1 & _). destruct (compute2 orc w l f g N D L A B X x (model_name o i) (bprior (get_mat w0 g)) F H) as (_ & C2).
  destruct H as [(_ & EF & _) ((hf & _ & lf) & (hg & _ & lg)) _ ((A1 & A1') & (B1 & B1') & X1 & X2)].
  assert (E2 : List.length (factors (get_lay w l)) = 2%nat) by (rewrite EF; reflexivity).
  split; intros HU HP HF Hb Hd Hr.
  - destruct (set_up_closure w0 f w l HU lf hf HS (or_introl E2)) as (c & Ec & ST & Ec'); [rewrite HP; contradiction|]. cbv zeta in Ec'. rewrite HP, E2, EM in Ec'. cbn [Nat.eqb] in Ec'. subst c.
    eapply run_inplace; [exact ST|exact hf|exact Ec|]. rewrite (C1 HF). destruct (C10_2_lemma o i Hoi out Hout N D L A B F X x (bprior (get_mat w0 f)) pB (o_cell orc (clock w)) A1 A1' B1 B1' X1 X2 Hb Hp) as (G & _).
    rewrite (G Hd Hr). reflexivity.
  - destruct (set_up_closure w0 g w l HU lg hg HS (or_introl E2)) as (c & Ec & ST & Ec'); [rewrite HP; contradiction|]. cbv zeta in Ec'. rewrite HP, E2, EM in Ec'. cbn [Nat.eqb] in Ec'. subst c.
    eapply run_inplace; [exact ST|exact hg|exact Ec|]. rewrite (C2 HF). destruct (C10_2_lemma o i Hoi out Hout N D L A B F X x pB (bprior (get_mat w0 g)) (o_cell orc (clock w)) A1 A1' B1 B1' X1 X2 Hp Hb) as (_ & G).
    rewrite (G Hd Hr). reflexivity.
Qed.
Lemma C74_3_lemma w0 w l f g h N D M L A B C X x F pA pB pC : layer3 w l f g h N D M L A B C X x -> model (get_lay w l) = model_name o i -> 0 < pA < 1 -> 0 < pB < 1 -> 0 < pC < 1 ->
  (set_up w0 f w -> parents (get_mat w f) = [] -> fixed_entries (get_mat w f) = A2 F -> bprior (get_mat w0 f) = pA -> draws_ok (o_cell orc (clock w)) N L ->
     updates_to orc w f (ref_sweep (fun A' => post3 out x X N D M L pA pB pC A' B C) F (o_cell orc (clock w)) N L A)) /\
  (set_up w0 g w -> parents (get_mat w g) = [] -> fixed_entries (get_mat w g) = A2 F -> bprior (get_mat w0 g) = pB -> draws_ok (o_cell orc (clock w)) D L ->
     updates_to orc w g (ref_sweep (fun B' => post3 out x X N D M L pA pB pC A B' C) F (o_cell orc (clock w)) D L B)) /\
  (set_up w0 h w -> parents (get_mat w h) = [] -> fixed_entries (get_mat w h) = A2 F -> bprior (get_mat w0 h) = pC -> draws_ok (o_cell orc (clock w)) M L ->
     updates_to orc w h (ref_sweep (fun C' => post3 out x X N D M L pA pB pC A B C') F (o_cell orc (clock w)) M L C)).
Proof.
  intros H EM PA PB PC. pose proof (implemented_standard _ _ Hoi) as HS. rewrite <- EM in HS. destruct (compute3 orc w l f g h N D M L A B C X x (model_name o i) pA F H) as (C1 & _). destruct (compute3 orc w l f g h N D M L A B C X x (model_name o i) pB F H) as (_ & C2 & _).
  destruct (compute3 orc w l f g h N D M L A B C X x (model_name o i) pC F H) as (_ & _ & C3). destruct H as [(_ & EF & _) ((hf & _ & lf) & (hg & _ & lg) & (hh & _ & lh)) _ ((A1 & A1') & (B1 & B1') & (Q1 & Q1') & X1)].
  assert (E2 : List.length (factors (get_lay w l)) = 3%nat) by (rewrite EF; reflexivity).
  destruct (C10_3_lemma o i Hoi out Hout N D M L A B C F X x pA pB pC (o_cell orc (clock w)) A1 A1' B1 B1' Q1 Q1' X1 PA PB PC) as (G1 & G2 & G3).
  split; [|split]; intros HU HP HF Hb Hr.
  - destruct (set_up_closure w0 f w l HU lf hf HS (or_intror HP)) as (c & Ec & ST & Ec'); [rewrite HP; contradiction|]. cbv zeta in Ec'. rewrite HP, E2, EM, Hb in Ec'. cbn [Nat.eqb] in Ec'. subst c. eapply run_inplace; [exact ST|exact hf|exact Ec|]. rewrite (C1 HF), (G1 Hr). reflexivity.
  - destruct (set_up_closure w0 g w l HU lg hg HS (or_intror HP)) as (c & Ec & ST & Ec'); [rewrite HP; contradiction|]. cbv zeta in Ec'. rewrite HP, E2, EM, Hb in Ec'. cbn [Nat.eqb] in Ec'. subst c. eapply run_inplace; [exact ST|exact hg|exact Ec|]. rewrite (C2 HF), (G2 Hr). reflexivity.
  - destruct (set_up_closure w0 h w l HU lh hh HS (or_intror HP)) as (c & Ec & ST & Ec'); [rewrite HP; contradiction|]. cbv zeta in Ec'. rewrite HP, E2, EM, Hb in Ec'. cbn [Nat.eqb] in Ec'. subst c. eapply run_inplace; [exact ST|exact hh|exact Ec|]. rewrite (C3 HF), (G3 Hr). reflexivity.
Qed.
(** A factor that is the child of another layer k (whose data is the factor's value). *)
Context (op ip : lop) (Hpi : In (op, ip) implemented) (outp : list vec -> nat -> Z) (Houtp : is_output op ip outp).
Lemma C74_parent_lemma w0 w l f g N D L A B X x F pB k a b K a1 a2 y : layer2 w l f g N D L A B X x -> model (get_lay w l) = model_name o i -> 0 < pB < 1 -> model (get_lay w k) = model_name op ip ->
  (layer2 w k a b N L K a1 a2 A y -> set_up w0 f w -> parents (get_mat w f) = [k] -> fixed_entries (get_mat w f) = A2 F -> 0 < bprior (get_mat w0 f) < 1 -> (Z.of_nat D <= 32767)%Z -> draws_ok (o_cell orc (clock w)) N L ->
     updates_to orc w f (ref_sweep (fun A' => post2 out x X N D L (bprior (get_mat w0 f)) pB A' B * parent_lik outp y a1 a2 N L K A') F (o_cell orc (clock w)) N L A)) /\
  (layer2 w k a b D L K a1 a2 B y -> set_up w0 g w -> parents (get_mat w g) = [k] -> fixed_entries (get_mat w g) = A2 F -> 0 < bprior (get_mat w0 g) < 1 -> (Z.of_nat N <= 32767)%Z -> draws_ok (o_cell orc (clock w)) D L ->
     updates_to orc w g (ref_sweep (fun B' => post2 out x X N D L pB (bprior (get_mat w0 g)) A B' * parent_lik outp y a1 a2 D L K B') F (o_cell orc (clock w)) D L B)).
Proof.
  intros H EM Hp EK. pose proof (implemented_standard _ _ Hoi) as HS. rewrite <- EM in HS. pose proof (implemented_standard _ _ Hpi) as HK. rewrite <- EK in HK.
  destruct (compute11 orc w l f g N D L A B X x (model_name o i) (model_name op ip) (bprior (get_mat w0 f)) F H) as (C1 & _). destruct (compute11 orc w l f g N D L A B X x (model_name o i) (model_name op ip) (bprior (get_mat w0 g)) F H) as (_ & C2).
  destruct H as [(_ & EF & _) ((hf & _ & lf) & (hg & _ & lg)) _ (A1 & B1 & X1 & X2)].
  assert (E2 : List.length (factors (get_lay w l)) = 2%nat) by (rewrite EF; reflexivity).
  split; intros HQ HU HP HF Hb Hd Hr.
  - assert (Q2 : forall p, In p (parents (get_mat w f)) -> List.length (factors (get_lay w p)) = 2%nat /\ In (model (get_lay w p)) standard_models).
    { rewrite HP. intros p [<-|[]]. split; [rewrite (proj1 (proj2 (l2_layer _ _ _ _ _ _ _ _ _ _ _ HQ))); reflexivity|exact HK]. }
    destruct (set_up_closure w0 f w l HU lf hf HS (or_introl E2) Q2) as (c & Ec & ST & Ec'). cbv zeta in Ec'. rewrite HP, EM, EK in Ec'. subst c.
    assert (EP : parent_args w f 0 = Ok (a1, a2, y)) by (eapply parent_argsE; [rewrite HP; reflexivity|exact HQ]). destruct (l2_shapes _ _ _ _ _ _ _ _ _ _ _ HQ) as (s1 & s2 & _).
    eapply run_inplace; [exact ST|exact hf|exact Ec|]. rewrite (C1 _ _ _ HF EP). destruct (C11_child_one_parent_lemma o i op ip Hoi Hpi out outp Hout Houtp N D L A B F X x (bprior (get_mat w0 f)) pB (o_cell orc (clock w)) A1 B1 X1 X2 Hb Hp) as (G & _).
    rewrite (G K a1 a2 y Hd Hr s1 s2). reflexivity.
  - assert (Q2 : forall p, In p (parents (get_mat w g)) -> List.length (factors (get_lay w p)) = 2%nat /\ In (model (get_lay w p)) standard_models).
    { rewrite HP. intros p [<-|[]]. split; [rewrite (proj1 (proj2 (l2_layer _ _ _ _ _ _ _ _ _ _ _ HQ))); reflexivity|exact HK]. }
    destruct (set_up_closure w0 g w l HU lg hg HS (or_introl E2) Q2) as (c & Ec & ST & Ec'). cbv zeta in Ec'. rewrite HP, EM, EK in Ec'. subst c.
    assert (EP : parent_args w g 0 = Ok (a1, a2, y)) by (eapply parent_argsE; [rewrite HP; reflexivity|exact HQ]). destruct (l2_shapes _ _ _ _ _ _ _ _ _ _ _ HQ) as (s1 & s2 & _).
    eapply run_inplace; [exact ST|exact hg|exact Ec|]. rewrite (C2 _ _ _ HF EP). destruct (C11_child_one_parent_lemma o i op ip Hoi Hpi out outp Hout Houtp N D L A B F X x pB (bprior (get_mat w0 g)) (o_cell orc (clock w)) A1 B1 X1 X2 Hp Hb) as (_ & G).
    rewrite (G K a1 a2 y Hd Hr s1 s2). reflexivity.
Qed.
(** A factor that is the child of two or more layers: only the first two count (when they have the same model). *)
Lemma C74_parents_lemma w0 w l f g N D L A B X x F pB k k' rest a b K a1 a2 y a' b' K' b1 b2 y' : layer2 w l f g N D L A B X x -> model (get_lay w l) = model_name o i -> 0 < pB < 1 -> model (get_lay w k) = model_name op ip -> model (get_lay w k') = model_name op ip ->
  (forall p, In p rest -> List.length (factors (get_lay w p)) = 2%nat /\ In (model (get_lay w p)) standard_models) ->
  (layer2 w k a b N L K a1 a2 A y -> layer2 w k' a' b' N L K' b1 b2 A y' -> set_up w0 f w -> parents (get_mat w f) = k :: k' :: rest -> fixed_entries (get_mat w f) = A2 F -> 0 < bprior (get_mat w0 f) < 1 -> (Z.of_nat D <= 32767)%Z -> draws_ok (o_cell orc (clock w)) N L ->
     updates_to orc w f (ref_sweep (fun A' => post2 out x X N D L (bprior (get_mat w0 f)) pB A' B * parent_lik outp y a1 a2 N L K A' * parent_lik outp y' b1 b2 N L K' A') F (o_cell orc (clock w)) N L A)) /\
  (layer2 w k a b D L K a1 a2 B y -> layer2 w k' a' b' D L K' b1 b2 B y' -> set_up w0 g w -> parents (get_mat w g) = k :: k' :: rest -> fixed_entries (get_mat w g) = A2 F -> 0 < bprior (get_mat w0 g) < 1 -> (Z.of_nat N <= 32767)%Z -> draws_ok (o_cell orc (clock w)) D L ->
     updates_to orc w g (ref_sweep (fun B' => post2 out x X N D L pB (bprior (get_mat w0 g)) A B' * parent_lik outp y a1 a2 D L K B' * parent_lik outp y' b1 b2 D L K' B') F (o_cell orc (clock w)) D L B)).
Proof.
  intros H EM Hp EK EK' HR. pose proof (implemented_standard _ _ Hoi) as HS. rewrite <- EM in HS. pose proof (implemented_standard _ _ Hpi) as HK. pose proof HK as HK'. rewrite <- EK in HK. rewrite <- EK' in HK'.
  destruct (compute12 orc w l f g N D L A B X x (model_name o i) (model_name op ip) (model_name op ip) (bprior (get_mat w0 f)) F H) as (C1 & _). destruct (compute12 orc w l f g N D L A B X x (model_name o i) (model_name op ip) (model_name op ip) (bprior (get_mat w0 g)) F H) as (_ & C2).
  destruct H as [(_ & EF & _) ((hf & _ & lf) & (hg & _ & lg)) _ (A1 & B1 & X1 & X2)].
  assert (E2 : List.length (factors (get_lay w l)) = 2%nat) by (rewrite EF; reflexivity).
  split; intros HQ HQ' HU HP HF Hb Hd Hr.
  - assert (Q2 : forall p, In p (parents (get_mat w f)) -> List.length (factors (get_lay w p)) = 2%nat /\ In (model (get_lay w p)) standard_models).
    { rewrite HP. intros p [<-|[<-|Hin]]; [| |apply HR; exact Hin]; (split; [|assumption]); [rewrite (proj1 (proj2 (l2_layer _ _ _ _ _ _ _ _ _ _ _ HQ)))|rewrite (proj1 (proj2 (l2_layer _ _ _ _ _ _ _ _ _ _ _ HQ')))]; reflexivity. }
    destruct (set_up_closure w0 f w l HU lf hf HS (or_introl E2) Q2) as (c & Ec & ST & Ec'). cbv zeta in Ec'. rewrite HP, EM, EK, EK' in Ec'. subst c.
    assert (EP : parent_args w f 0 = Ok (a1, a2, y)) by (eapply parent_argsE; [rewrite HP; reflexivity|exact HQ]). assert (EP' : parent_args w f 1 = Ok (b1, b2, y')) by (eapply parent_argsE; [rewrite HP; reflexivity|exact HQ']).
    destruct (l2_shapes _ _ _ _ _ _ _ _ _ _ _ HQ) as (s1 & s2 & _). destruct (l2_shapes _ _ _ _ _ _ _ _ _ _ _ HQ') as (s3 & s4 & _).
    eapply run_inplace; [exact ST|exact hf|exact Ec|]. rewrite (C1 _ _ _ _ _ _ HF EP EP'). destruct (C11_child_two_parents_lemma o i op ip Hoi Hpi out outp Hout Houtp N D L A B F X x (bprior (get_mat w0 f)) pB (o_cell orc (clock w)) A1 B1 X1 X2 Hb Hp) as (G & _).
    rewrite (G K K' a1 a2 y b1 b2 y' Hd Hr s1 s2 s3 s4). reflexivity.
  - assert (Q2 : forall p, In p (parents (get_mat w g)) -> List.length (factors (get_lay w p)) = 2%nat /\ In (model (get_lay w p)) standard_models).
    { rewrite HP. intros p [<-|[<-|Hin]]; [| |apply HR; exact Hin]; (split; [|assumption]); [rewrite (proj1 (proj2 (l2_layer _ _ _ _ _ _ _ _ _ _ _ HQ)))|rewrite (proj1 (proj2 (l2_layer _ _ _ _ _ _ _ _ _ _ _ HQ')))]; reflexivity. }
    destruct (set_up_closure w0 g w l HU lg hg HS (or_introl E2) Q2) as (c & Ec & ST & Ec'). cbv zeta in Ec'. rewrite HP, EM, EK, EK' in Ec'. subst c.
    assert (EP : parent_args w g 0 = Ok (a1, a2, y)) by (eapply parent_argsE; [rewrite HP; reflexivity|exact HQ]). assert (EP' : parent_args w g 1 = Ok (b1, b2, y')) by (eapply parent_argsE; [rewrite HP; reflexivity|exact HQ']).
    destruct (l2_shapes _ _ _ _ _ _ _ _ _ _ _ HQ) as (s1 & s2 & _). destruct (l2_shapes _ _ _ _ _ _ _ _ _ _ _ HQ') as (s3 & s4 & _).
    eapply run_inplace; [exact ST|exact hg|exact Ec|]. rewrite (C2 _ _ _ _ _ _ HF EP EP'). destruct (C11_child_two_parents_lemma o i op ip Hoi Hpi out outp Hout Houtp N D L A B F X x pB (bprior (get_mat w0 g)) (o_cell orc (clock w)) A1 B1 X1 X2 Hp Hb) as (_ & G).
    rewrite (G K K' a1 a2 y b1 b2 y' Hd Hr s1 s2 s3 s4). reflexivity.
Qed.
(** ** Dispersions *)
Lemma set_up_lclosure w0 w l : set_up_disp w0 l w -> (l < List.length (layers w))%nat -> model (get_lay w l) = model_name o i ->
  lsfct (lbda (get_lay w l)) = Some (if Nat.eqb (List.length (factors (get_lay w l))) 2 then Lf2 (model_name o i) else Lf3 (model_name o i)).
Proof.
  intros (E0 & w1 & E1 & ED & ES) Hl EM. assert (K : kin w0 w) by (eapply kin_trans; [apply kin_unassigned; eapply assign_lbda_unassigned; exact E1|apply kin_edited; exact ED]).
  destruct (kin_lay _ _ K l) as (kf & km). rewrite ES. unfold assign_lbda, get_update_fct in E1. cbv zeta in E1. rewrite E0, <- km, EM, <- kf in E1.
  destruct (standard_known _ (implemented_standard _ _ Hoi)) as (_ & _ & _ & (c2 & C2) & (c3 & C3) & M1 & M2 & _). rewrite M1, M2, C2, C3 in E1. cbn [bind] in E1.
  assert (Hl0 : (l < List.length (layers w0))%nat).
  { destruct ED as (_ & _ & _ & Ll & _). rewrite Ll in Hl. apply bind_ok in E1. destruct E1 as (c & _ & E1). injection E1 as <-. unfold set_lay, set_layers in Hl. cbn [layers] in Hl. rewrite upd_length in Hl. exact Hl. }
  destruct (Nat.eqb _ 2); [|destruct (Nat.eqb _ 3)]; cbn [bind] in E1; try discriminate; injection E1 as <-; rewrite get_lay_set, Nat.eqb_refl, (proj2 (Nat.ltb_lt _ _) Hl0); reflexivity.
Qed.
Lemma run_lbdaE w l f v rt : (l < List.length (layers w))%nat -> lsfct (lbda (get_lay w l)) = Some f -> compute_lbda w l f = Ok (v, rt) ->
  exists w', run_lbda w l = Ok w' /\ disp w' l = v /\ arrays w' = arrays w /\ mats w' = mats w /\ forall l', l' <> l -> get_lay w' l' = get_lay w l'.
Proof.
  intros Hl Ef Ec. unfold run_lbda. rewrite Ef. cbn [of_option bind]. rewrite Ec. cbn [bind]. eexists. split; [reflexivity|]. split; [unfold disp; rewrite get_lay_set, Nat.eqb_refl, (proj2 (Nat.ltb_lt _ _) Hl); reflexivity|]. split; [reflexivity|]. split; [reflexivity|].
  intros l' Hn. rewrite get_lay_set, (proj2 (Nat.eqb_neq _ _) Hn). reflexivity.
Qed.
Lemma C75_2_lemma w0 w l f g N D L A B X x a b : layer2 w l f g N D L A B X x -> model (get_lay w l) = model_name o i -> set_up_disp w0 l w -> beta (lbda (get_lay w l)) = (a, b) -> 0 < a -> 0 < b ->
  exists w' lam, run_lbda w l = Ok w' /\ disp w' l = LS lam /\ best_dispersion (correct2 out X N D L A B) (observed2 X N D) a b lam /\ arrays w' = arrays w /\ mats w' = mats w /\ forall l', l' <> l -> get_lay w' l' = get_lay w l'.
Proof.
  intros [(Hl & EF & _) _ (va & vb & vx & _) (s1 & s2 & s3 & _)] EM HU EB Ha Hb. pose proof (set_up_lclosure _ _ _ HU Hl EM) as Ef. rewrite EF in Ef. cbn [List.length Nat.eqb] in Ef.
  destruct (C17_2_lemma o i Hoi out Hout A B X N D L a b s1 s2 s3 Ha Hb) as (lam & E & G).
  destruct (run_lbdaE w l _ (LS lam) (ratios (get_lay w l)) Hl Ef) as (w' & R1 & R2 & R3).
  { unfold compute_lbda. cbv zeta. rewrite EB, EF. unfold pick. cbn [nth_error of_option bind]. rewrite (readE _ _ _ va), (readE _ _ _ vb). cbn [bind]. rewrite vx. cbn [as2 bind]. rewrite E. reflexivity. }
  exists w', lam. auto.
Qed.
Lemma C75_3_lemma w0 w l f g h N D M L A B C X x a b : layer3 w l f g h N D M L A B C X x -> model (get_lay w l) = model_name o i -> set_up_disp w0 l w -> beta (lbda (get_lay w l)) = (a, b) -> 0 < a -> 0 < b ->
  exists w' lam, run_lbda w l = Ok w' /\ disp w' l = LS lam /\ best_dispersion (correct3 out X N D M L A B C) (observed3 X N D M) a b lam /\ arrays w' = arrays w /\ mats w' = mats w /\ forall l', l' <> l -> get_lay w' l' = get_lay w l'.
Proof.
  intros [(Hl & EF & _) _ (va & vb & vc & vx & _) (s1 & s2 & s3 & s4)] EM HU EB Ha Hb. pose proof (set_up_lclosure _ _ _ HU Hl EM) as Ef. rewrite EF in Ef. cbn [List.length Nat.eqb] in Ef.
  destruct (C17_3_lemma o i Hoi out Hout A B C X N D M L a b s1 s2 s3 s4 Ha Hb) as (lam & E & G).
  destruct (run_lbdaE w l _ (LS lam) (ratios (get_lay w l)) Hl Ef) as (w' & R1 & R2 & R3).
  { unfold compute_lbda. cbv zeta. rewrite EB, EF. unfold pick. cbn [nth_error of_option bind]. rewrite (readE _ _ _ va), (readE _ _ _ vb), (readE _ _ _ vc). cbn [bind]. rewrite vx. cbn [as3 bind]. rewrite E. reflexivity. }
  exists w', lam. auto.
Qed.
End Gibbs.
Lemma C58_partial_lemma : forall orc o i, In (o, i) implemented -> forall out, is_output o i out ->
  forall w0 w l f g N D L A B X x F, layer2 w l f g N D L A B X x -> model (get_lay w l) = model_name o i ->
  set_up w0 f w -> bprior (get_mat w f) = bprior (get_mat w0 f) -> parents (get_mat w f) = [] -> fixed_entries (get_mat w f) = A2 F -> 0 < bprior (get_mat w f) < 1 -> (Z.of_nat D <= 32767)%Z -> draws_ok (o_cell orc (clock w)) N L ->
  updates_to orc w f (ref_sweep (fun A' => post2 out x X N D L (bprior (get_mat w f)) (1 / 2) A' B) F (o_cell orc (clock w)) N L A).
Proof.
  intros orc o i Hoi out Hout w0 w l f g N D L A B X x F H EM HU EB HP HF Hb Hd Hr. rewrite EB in *. assert (P2 : 0 < 1 / 2 < 1) by (split; lra).
  destruct (C74_2_lemma orc o i Hoi out Hout w0 w l f g N D L A B X x F (1 / 2) H EM P2) as (G & _). exact (G HU HP HF Hb Hd Hr).
Qed.

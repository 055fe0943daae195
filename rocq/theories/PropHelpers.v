(** C45-C51, C54-C56, C66: helper functions. *)
From Coq Require Import String Lra.
From Verif Require Import Base BaseR Spec SpecR SpecMax SpecHelpers Helpers HelpersProofs.
Local Open Scope R_scope.

(** C45. Full statement: every length; the int8 return type limits it to 127. *)
Theorem C45_intervals_partial : forall p u, 
  Forall (fun x => 0 <= x) p -> Rsum (fun x => x) p = 1 -> (List.length p <= 127)%nat -> 0 <= u < 1 ->
  (exists i, (1 <= i <= List.length p)%nat /\ random_choice p u = Z.of_nat i) /\
  (forall i, (1 <= i <= List.length p)%nat ->
     cumulative p i - cumulative p (i - 1) = nth (i - 1) p 0 /\
     (random_choice p u = Z.of_nat i <-> cumulative p (i - 1) <= u < cumulative p i)).
Proof. exact C45_lemma. Qed.
Theorem C45_fallthrough : forall p u, 
  Forall (fun x => 0 <= x) p -> (List.length p <= 126)%nat -> 0 <= u -> Rsum (fun x => x) p <= u ->
  random_choice p u = (Z.of_nat (List.length p) + 1)%Z.
Proof. exact C45_fall_lemma. Qed.
(** With 128 categories the last one is returned as -128. *)
Theorem C45_long_refuted : forall u, 
  0 <= u < 1 -> let p := repeat 0 127 ++ [1] in
  Forall (fun x => 0 <= x) p /\ Rsum (fun x => x) p = 1 /\ random_choice p u = (-128)%Z.
Proof. exact C45_long_lemma. Qed.
Example C45_example : Forall (fun x => 0 <= x) [1/4; 0; 3/4] /\ Rsum (fun x => x) [1/4; 0; 3/4] = 1 /\ 0 <= 1/2 < 1.
Proof. split; [repeat constructor; lra|]. cbn. lra. Qed.

(** C46. Entry i is hidden in unbalanced mode iff its draw is below split*size/observed. *)
Theorem C46_split : forall tensor split balanced rand idx_p idx_n tr mask, 
  0 <= split ->
  (balanced = true -> forall S, is_floor S (INR (nobs tensor) * split / 2) ->
     is_draw (count_pos (List.length tensor) (fun i => at1 tensor i =? 1)%Z) S idx_p /\
     is_draw (count_pos (List.length tensor) (fun i => at1 tensor i =? -1)%Z) S idx_n) ->
  split_train_test tensor split balanced rand idx_p idx_n = Ok (tr, mask) ->
  List.length tr = List.length tensor /\ List.length mask = List.length tensor /\
  (forall i, (i < List.length tensor)%nat ->
     (nth i mask false = true -> at1 tensor i <> 0%Z) /\ at1 tr i = (if nth i mask false then 0%Z else at1 tensor i)) /\
  (balanced = false -> forall i, (i < List.length tensor)%nat ->
     (nth i mask false = true <-> at1 tensor i <> 0%Z /\ rand i * INR (nobs tensor) < split * INR (List.length tensor))) /\
  (balanced = true -> exists S, is_floor S (INR (nobs tensor) * split / 2) /\
     count_pos (List.length tensor) (fun i => nth i mask false && (at1 tensor i =? 1)%Z) = S /\
     count_pos (List.length tensor) (fun i => nth i mask false && (at1 tensor i =? -1)%Z) = S).
Proof. exact C46_lemma. Qed.
(** When the call succeeds. *)
Theorem C46_success : forall tensor split rand idx_p idx_n, 
  0 <= split ->
  ((exists r, split_train_test tensor split false rand idx_p idx_n = Ok r) <->
     (0 < nobs tensor)%nat /\ split * INR (List.length tensor) <= INR (nobs tensor)) /\
  (forall S, is_floor S (INR (nobs tensor) * split / 2) ->
   ((exists r, split_train_test tensor split true rand idx_p idx_n = Ok r) <->
     (S <= count_pos (List.length tensor) (fun i => at1 tensor i =? 1)%Z)%nat /\ (S <= count_pos (List.length tensor) (fun i => at1 tensor i =? -1)%Z)%nat /\
     (0 < count_pos (List.length tensor) (fun i => at1 tensor i =? 1)%Z)%nat /\ (0 < count_pos (List.length tensor) (fun i => at1 tensor i =? -1)%Z)%nat)).
Proof. exact C46_success_lemma. Qed.
Example C46_example : is_floor 1 (INR (nobs [1; -1; 0; 1; -1]%Z) * (1/2) / 2) /\
  is_draw (count_pos 5 (fun i => at1 [1; -1; 0; 1; -1]%Z i =? 1)%Z) 1 [1%nat].
Proof.
  split; [unfold is_floor; cbn; lra|]. split; [repeat constructor; intros []|]. split; [repeat constructor|reflexivity].
Qed.

(** C47. [codes] covers both input codings. *)
Theorem C47_split : forall data base N D p idx_t idx_f k, 
  has_shape2 base N D -> (0 < N)%nat -> bin2 base -> codes data base -> 0 <= p ->
  is_floor k (INR (N * D) * p / 2) ->
  let ones := count_cells N D (fun n d => at2 base n d =? 1)%Z in
  let minus := count_cells N D (fun n d => at2 base n d =? -1)%Z in
  ((k <= ones)%nat -> (k <= minus)%nat -> is_draw ones k idx_t -> is_draw minus k idx_f ->
   exists out, split_test_train data p idx_t idx_f = Ok out /\ has_shape2 out N D /\
     (forall n d, (n < N)%nat -> (d < D)%nat -> at2 out n d = 0%Z \/ at2 out n d = at2 base n d) /\
     count_cells N D (fun n d => (at2 out n d =? 0)%Z && (at2 base n d =? 1)%Z) = k /\
     count_cells N D (fun n d => (at2 out n d =? 0)%Z && (at2 base n d =? -1)%Z) = k) /\
  ((ones < k)%nat \/ (minus < k)%nat -> split_test_train data p idx_t idx_f = Err ValueError).
Proof. exact C47_lemma. Qed.
Example C47_example : let base := [[1; -1]; [-1; 1]]%Z in has_shape2 base 2 2 /\ bin2 base /\ codes [[1; 0]; [0; 1]]%Z base /\
  is_floor 1 (INR (2 * 2) * (1/2) / 2) /\ is_draw (count_cells 2 2 (fun n d => at2 base n d =? 1)%Z) 1 [1%nat].
Proof.
  cbv zeta. split; [split; [reflexivity|repeat constructor]|]. split; [repeat constructor; unfold pm1; lia|]. split; [right; reflexivity|].
  split; [unfold is_floor; cbn; lra|]. split; [repeat constructor; intros []|]. split; [repeat constructor|reflexivity].
Qed.

(** C48. Full statement: all three functions on {-1,0,1} arrays. It fails for the 3D function on integers. *)
Theorem C48_noise_2d : forall rand X p N D, 
  has_shape2 X N D ->
  exists out, add_bernoulli_noise_2d rand X p = Ok out /\ has_shape2 out N D /\
    (forall n d, (n < N)%nat -> (d < D)%nat ->
       (rand (n * D + d)%nat < p -> at2 out n d = (- at2 X n d)%Z) /\ (p <= rand (n * D + d)%nat -> at2 out n d = at2 X n d)).
Proof. exact C48_2d_lemma. Qed.
Theorem C48_extremes : forall rand X p N D, 
  has_shape2 X N D -> (forall k, 0 <= rand k < 1) ->
  (p <= 0 -> add_bernoulli_noise_2d rand X p = Ok X) /\ (1 <= p -> add_bernoulli_noise_2d rand X p = Ok (map (map Z.opp) X)).
Proof. exact C48_extremes_lemma. Qed.
Theorem C48_noise_biased : forall rand X pp pm N D, 
  has_shape2 X N D -> tern2 X ->
  exists out, add_bernoulli_noise_2d_biased rand X pp pm = Ok out /\ has_shape2 out N D /\
    (forall n d, (n < N)%nat -> (d < D)%nat -> let u := rand (observed_before X D n d) in
       (at2 X n d = 0%Z -> at2 out n d = 0%Z) /\
       (at2 X n d = 1%Z -> (u < pp -> at2 out n d = (-1)%Z) /\ (pp <= u -> at2 out n d = 1%Z)) /\
       (at2 X n d = (-1)%Z -> (u < pm -> at2 out n d = 1%Z) /\ (pm <= u -> at2 out n d = (-1)%Z))).
Proof. exact C48_biased_lemma. Qed.
(** The 3D function flips Boolean arrays, ... *)
Theorem C48_noise_3d_bool_partial : forall rand X p N D M, 
  List.length X = N -> Forall (fun s => List.length s = D /\ Forall (fun r => List.length r = M) s) X ->
  exists out, add_bernoulli_noise_bool rand X p = Ok out /\ List.length out = N /\
    Forall (fun s => List.length s = D /\ Forall (fun r => List.length r = M) s) out /\
    forall n d m, (n < N)%nat -> (d < D)%nat -> (m < M)%nat ->
      let x := nth m (nth d (nth n X []) []) false in let y := nth m (nth d (nth n out []) []) false in
      (rand ((n * D + d) * M + m)%nat < p -> y = negb x) /\ (p <= rand ((n * D + d) * M + m)%nat -> y = x).
Proof. exact C48_bool_lemma. Qed.
(** ... but on {-1,1} integers a flipped entry is neither the original nor its negation. *)
Theorem C48_noise_3d_int_refuted : forall rand X p N D M, 
  has_shape3 X N D M -> bin3 X -> 
  exists out, add_bernoulli_noise_int rand X p = Ok out /\ has_shape3 out N D M /\
    forall n d m, (n < N)%nat -> (d < D)%nat -> (m < M)%nat -> rand ((n * D + d) * M + m)%nat < p ->
      at3 out n d m <> at3 X n d m /\ at3 out n d m <> (- at3 X n d m)%Z.
Proof. exact C48_int_lemma. Qed.
Example C48_example : has_shape3 [[[1; -1]]]%Z 1 1 2 /\ bin3 [[[1; -1]]]%Z /\ tern2 [[1; 0; -1]]%Z /\ has_shape2 [[1; 0; -1]]%Z 1 3.
Proof. repeat split; repeat constructor; unfold pm1, tern; lia. Qed.

(** C49. Two generator states whose draws straddle p give different results under the same seed, ... *)
Theorem C49_seed_refuted : forall (G : Type) (next : G -> R * G) reseed randint X p N D seed g1 g2 n d, 
  has_shape2 X N D -> (n < N)%nat -> (d < D)%nat -> at2 X n d <> 0%Z ->
  stream next g1 (n * D + d)%nat < p <= stream next g2 (n * D + d)%nat ->
  noise_2d_call next reseed randint X p (Some seed) g1 <> noise_2d_call next reseed randint X p (Some seed) g2.
Proof. exact @C49_lemma. Qed.
(** ... and such states exist. *)
Theorem C49_exists_refuted : 
  exists (G : Type) (next : G -> R * G) reseed randint X p seed g1 g2,
  noise_2d_call next reseed randint X p (Some seed) g1 <> noise_2d_call next reseed randint X p (Some seed) g2.
Proof. exact C49_refuted_lemma. Qed.
(** The value of the seed is ignored. *)
Theorem C49_value_ignored : forall (G : Type) (next : G -> R * G) reseed randint X p s1 s2 g, 
  noise_2d_call next reseed randint X p (Some s1) g = noise_2d_call next reseed randint X p (Some s2) g.
Proof. exact @C49_ignored_lemma. Qed.
(** C50. *)
Theorem C50_recoding : forall data, 
  (Forall (fun x => x = 0 \/ x = 1)%Z data ->
     check_binary_coding data = map (fun x => if (x =? 1)%Z then 1%Z else (-1)%Z) data /\
     check_binary_coding (check_binary_coding data) = check_binary_coding data) /\
  (In (-1)%Z data -> Forall (fun x => (-128 <= x <= 127)%Z) data -> check_binary_coding data = data).
Proof. exact C50_lemma. Qed.
Example C50_example : Forall (fun x => x = 0 \/ x = 1)%Z [0; 1; 1]%Z /\ In (-1)%Z [0; -1]%Z.
Proof. split; [repeat constructor; lia|cbn; auto]. Qed.

(** C51. *)
Theorem C51_product : forall Z_ U V ZL UL VL, 
  (UL = ZL -> VL = ZL -> exists X, boolean_tensor_product Z_ U V ZL UL VL = Ok X /\
     List.length X = List.length Z_ /\ Forall (fun s => List.length s = List.length U /\ Forall (fun r => List.length r = List.length V) s) X /\
     forall n d m, (n < List.length Z_)%nat -> (d < List.length U)%nat -> (m < List.length V)%nat ->
       let x := nth m (nth d (nth n X []) []) false in
       (x = true <-> exists l, (l < ZL)%nat /\ nth l (nth n Z_ []) false = true /\ nth l (nth d U []) false = true /\ nth l (nth m V []) false = true) /\
       lom_output OR AND [coded (nth n Z_ []); coded (nth d U []); coded (nth m V [])] ZL (if x then 1%Z else (-1)%Z)) /\
  (UL <> ZL \/ VL <> ZL -> boolean_tensor_product Z_ U V ZL UL VL = Err AssertionError).
Proof. exact C51_lemma. Qed.
Example C51_example : exists X, boolean_tensor_product [[true; false]] [[true; true]; [false; true]] [[true; false]] 2 2 2 = Ok X /\ X = [[[true]; [false]]].
Proof. eexists. split; reflexivity. Qed.

(** C54. [eqb] decides equality of the elements. *)
Theorem C54_unique : forall (A : Type) (eqb : A -> A -> bool) s, 
  (forall x y, reflect (x = y) (eqb x y)) ->
  NoDup (unique_ordered eqb s) /\ (forall x, In x (unique_ordered eqb s) <-> In x s) /\
  (forall a b x y i j, (a < b)%nat -> nth_error (unique_ordered eqb s) a = Some x -> nth_error (unique_ordered eqb s) b = Some y ->
     first_at s x i -> first_at s y j -> (i < j)%nat).
Proof. exact @C54_lemma. Qed.
Example C54_example : NoDup (unique_ordered Nat.eqb [3; 1; 3; 2; 1]%nat) /\ unique_ordered Nat.eqb [3; 1; 3; 2; 1]%nat = [3; 1; 2]%nat.
Proof. split; [exact (proj1 (C54_unique nat Nat.eqb [3; 1; 3; 2; 1]%nat Nat.eqb_spec))|reflexivity]. Qed.

(** C55. What the function decides: no column's ones lie inside another's. *)
Theorem C55_antichain : forall m L, 
  all_columsn_are_disjoint m L = true <-> forall i j, (i < L)%nat -> (j < L)%nat -> i <> j -> ~ column_below m i j.
Proof. exact C55_lemma. Qed.
(** Full statement: True iff disjoint. One direction holds without all-zero columns. *)
Theorem C55_disjoint_partial : forall m L, 
  disjoint_columns m L -> (forall i, (i < L)%nat -> exists r, In r m /\ nth i r 0%Z = 1%Z) ->
  all_columsn_are_disjoint m L = true.
Proof. exact C55_true_part. Qed.
(** Overlapping columns reported disjoint; a disjoint matrix with a zero column reported overlapping. *)
Theorem C55_disjoint_refuted : 
  all_columsn_are_disjoint [[1; 1]; [1; -1]; [-1; 1]]%Z 2 = true /\ ~ disjoint_columns [[1; 1]; [1; -1]; [-1; 1]]%Z 2 /\
  all_columsn_are_disjoint [[1; -1]]%Z 2 = false /\ disjoint_columns [[1; -1]]%Z 2.
Proof. exact C55_refuted_lemma. Qed.
Example C55_example : disjoint_columns [[1; -1]; [-1; 1]]%Z 2 /\ forall i, (i < 2)%nat -> exists r, In r [[1; -1]; [-1; 1]]%Z /\ nth i r 0%Z = 1%Z.
Proof.
  split.
  - intros r i j [<-|[<-|[]]] Hi Hj Hij [H1 H2]; destruct i as [|[|?]], j as [|[|?]]; cbn in H1, H2; lia.
  - intros [|[|i]] Hi; [exists [1; -1]%Z|exists [-1; 1]%Z|lia]; cbn; auto.
Qed.

(** C56. Full statement: length N for every N. It holds for N = n, ... *)
Theorem C56_equal_partial : forall q n, 
  0 < q < 1 -> exists bp, compute_bp q n n 1 = Ok bp /\ List.length bp = n /\
  forall k, (k < n)%nat -> nth k bp None = Some (ln (binomial n (S k) q / binomial n k q)).
Proof. exact C56_equal. Qed.
(** ... otherwise the length is max(n, N+1), never N when N >= n. *)
Theorem C56_padded_refuted : forall q n N, 
  0 < q < 1 -> (1 <= n)%nat -> N <> n -> exists bp, compute_bp q n N 1 = Ok bp /\
  List.length bp = Nat.max n (S N) /\ (forall k, (k < n)%nat -> nth k bp None = Some (ln (binomial n (S k) q / binomial n k q))) /\
  (forall k, (n <= k)%nat -> nth k bp None = None).
Proof. exact C56_padded. Qed.
Example C56_example : exists bp, compute_bp (1/2) 2 5 1 = Ok bp /\ List.length bp = 6%nat.
Proof. destruct (C56_padded (1/2) 2 5) as (bp & E & Hl & _); [lra|lia|lia|]. exists bp. split; assumption. Qed.

(** C66. Full statement: every a, b > 0. It fails for b = 1. *)
Theorem C66_bbp_partial : forall n a b, 
  0 < a -> 0 < b -> b <> 1 -> exists bbp, compute_bbp n a b = Ok bbp /\ List.length bbp = S n /\
  (forall k, (k < n)%nat -> nth k bbp None = Some (ln (beta_binomial n (S k) a b / beta_binomial n k a b))) /\ nth n bbp None = None.
Proof. exact C66_lemma. Qed.
Theorem C66_bbp_refuted : forall n a, 
  0 < a -> compute_bbp n a 1 = Err ZeroDivisionError.
Proof. exact C66_refuted_lemma. Qed.
Example C66_example : exists bbp, compute_bbp 3 2 (1/2) = Ok bbp /\ List.length bbp = 4%nat.
Proof. destruct (C66_lemma 3 2 (1/2)) as (bp & E & Hl & _); [lra|lra|lra|]. exists bp. split; assumption. Qed.

Print Assumptions C45_intervals_partial.
Print Assumptions C45_fallthrough.
Print Assumptions C45_long_refuted.
Print Assumptions C46_split.
Print Assumptions C46_success.
Print Assumptions C47_split.
Print Assumptions C48_noise_2d.
Print Assumptions C48_extremes.
Print Assumptions C48_noise_biased.
Print Assumptions C48_noise_3d_bool_partial.
Print Assumptions C48_noise_3d_int_refuted.
Print Assumptions C49_seed_refuted.
Print Assumptions C49_exists_refuted.
Print Assumptions C49_value_ignored.
Print Assumptions C50_recoding.
Print Assumptions C51_product.
Print Assumptions C54_unique.
Print Assumptions C55_antichain.
Print Assumptions C55_disjoint_partial.
Print Assumptions C55_disjoint_refuted.
Print Assumptions C56_equal_partial.
Print Assumptions C56_padded_refuted.
Print Assumptions C66_bbp_partial.
Print Assumptions C66_bbp_refuted.

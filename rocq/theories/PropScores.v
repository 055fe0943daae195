(** C07, C08, C09: posterior scores. *)
From Coq Require Import String.
From Verif Require Import Base Spec Scores ScoresProofs.
Local Open Scope Z_scope.

(** C07. The score function selected for a two-factor model counts exactly the explanations gained
    by setting entry [l]; always up to wrap-around of the int16 return type, and exactly when there
    are at most 32767 data points in {-1,0,1}. *)
Theorem C07_score_2d :
  forall o i, In (o, i) implemented ->
  exists f, get_posterior_score_fct_2d (model_tag (model_name o i) "2") = Ok f /\
    forall z U x l D L,
      has_shape2 U D L -> bin2 U -> bin1 z -> List.length z = L -> (l < L)%nat ->
      exists s, explained2 o i z U x l D L s /\ f z U x l = wrap16 s /\
        (tern1 x -> Z.of_nat D <= 32767 -> f z U x l = s).
Proof. exact C07_lemma. Qed.
Print Assumptions C07_score_2d.

(** Switching on dimension 0 loses the first point (explained away by dimension 1) and gains a wrong
    prediction at the second; the third does not involve dimension 0, the fourth is missing. *)
Example C07_example :
  In (XOR, AND) implemented /\ has_shape2 [[1; 1; -1]; [1; -1; 1]; [-1; 1; 1]; [1; 1; 1]] 4 3 /\
  bin2 [[1; 1; -1]; [1; -1; 1]; [-1; 1; 1]; [1; 1; 1]] /\ bin1 [1; 1; -1] /\ tern1 [1; -1; 1; 0] /\
  posterior_score_XOR_AND_2D [1; 1; -1] [[1; 1; -1]; [1; -1; 1]; [-1; 1; 1]; [1; 1; 1]] [1; -1; 1; 0] 0 = -2 /\
  explained2 XOR AND [1; 1; -1] [[1; 1; -1]; [1; -1; 1]; [-1; 1; 1]; [1; 1; 1]] [1; -1; 1; 0] 0 4 3 (-2).
Proof. exact C07_example_lemma. Qed.

(** C08. The three-factor scores are exact for any sizes and any integer data. *)
Theorem C08_score_3d :
  forall o i, In (o, i) implemented ->
  exists f, get_posterior_score_fct_3d (model_tag (model_name o i) "3") = Ok f /\
    forall z U V x l D M L,
      has_shape2 U D L -> has_shape2 V M L -> bin2 U -> bin2 V -> bin1 z -> List.length z = L -> (l < L)%nat ->
      explained3 o i z U V x l D M L (f z U V x l).
Proof. exact C08_lemma. Qed.
Print Assumptions C08_score_3d.

Example C08_example :
  In (NAND, XOR) implemented /\ has_shape2 [[1; -1]; [-1; -1]] 2 2 /\ has_shape2 [[-1; 1]; [-1; -1]; [1; -1]] 3 2 /\
  posterior_score_NAND_XOR_3D [-1; 1] [[1; -1]; [-1; -1]] [[-1; 1]; [-1; -1]; [1; -1]] [[1; -1; 0]; [1; 1; -1]] 0 = -3 /\
  explained3 NAND XOR [-1; 1] [[1; -1]; [-1; -1]] [[-1; 1]; [-1; -1]; [1; -1]] [[1; -1; 0]; [1; 1; -1]] 0 2 3 2 (-3).
Proof. exact C08_example_lemma. Qed.

(** C09 is false of the code: for each of the eight models there is a {-1,1} data row with 32768
    entries for which the true score is 32768 and the returned one -32768 (int16 return type),
    i.e. of the opposite sign. *)
Theorem C09_score_any_size_refuted :
  forall o i, In (o, i) implemented ->
  exists f, get_posterior_score_fct_2d (model_tag (model_name o i) "2") = Ok f /\
    exists z U x l D L,
      has_shape2 U D L /\ bin2 U /\ bin1 z /\ List.length z = L /\ (l < L)%nat /\
      bin1 x /\ List.length x = D /\ Z.of_nat D = 32768 /\
      explained2 o i z U x l D L 32768 /\ f z U x l = -32768.
Proof. exact C09_lemma. Qed.
Print Assumptions C09_score_any_size_refuted.

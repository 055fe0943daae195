(** C108: relevance of the dimensions of a MaxMachine. *)
From Coq Require Import String.
From Verif Require Import Base BaseR Spec SpecR Fuzzy SpecMax Relevance RelevanceProofs RelevanceExamples SpecRelevance.
Local Open Scope R_scope.

(** C108. On posterior samples, the value of a latent dimension is the expected probability with which a one
    of the data is emitted by it: every one is credited to an active dimension that no active one exceeds. *)
Theorem C108_value : forall alphas As Bs x T N D L, samples_ok alphas As Bs T N D L -> has_shape2 x N D -> ones x N D <> [] -> (0 < T)%nat ->
  exists e, maxmachine_relevance (RL (Some None) (Some alphas) (Some As) (Some Bs) x) "mcmc" = Ok (e, RL (Some (Some e)) (Some alphas) (Some As) (Some Bs) x) /\
  List.length e = S L /\ forall l, (l < L)%nat -> is_relevance alphas As Bs x T N D L l (nth l e 0).
Proof. exact C108_value_lemma. Qed.
Print Assumptions C108_value.

(** Both dimensions are active for the first one of the data, only the weaker for the second. *)
Example C108_value_example : samples_ok [[1 / 2; 3 / 4; 1 / 8]] [[[1; 1]; [1; -1]]]%Z [[[1; 1]]]%Z 1 2 1 2 /\
  exists e s', maxmachine_relevance (RL (Some None) (Some [[1 / 2; 3 / 4; 1 / 8]]) (Some [[[1; 1]; [1; -1]]]%Z) (Some [[[1; 1]]]%Z) [[1]; [1]]%Z) "mcmc" = Ok (e, s') /\
  nth 0 e 0 = 1 / 4 /\ nth 1 e 0 = 3 / 8 /\ nth 2 e 0 = 1 / 16.
Proof. exact (conj ex_samples ex_value). Qed.

(** C108. If no two latent dispersions of a sample agree, the values of the latent dimensions add up to the
    expected probability with which the latent dimensions emit a one of the data. *)
Theorem C108_total : forall alphas As Bs x T N D L s e s', samples_ok alphas As Bs T N D L -> has_shape2 x N D -> ones x N D <> [] -> (0 < T)%nat ->
  distinct_dispersions alphas T L -> s = RL (Some None) (Some alphas) (Some As) (Some Bs) x -> maxmachine_relevance s "mcmc" = Ok (e, s') ->
  is_latent_total alphas As Bs x T N D L (Rsum (fun l => nth l e 0) (seq 0 L)).
Proof. exact C108_total_lemma. Qed.
Print Assumptions C108_total.

Example C108_total_example : samples_ok ex_alphas ex_As ex_Bs 1 2 1 2 /\ has_shape2 ex_x 2 1 /\ ones ex_x 2 1 <> [] /\ distinct_dispersions ex_alphas 1 2.
Proof. exact (conj ex_samples (conj ex_shape (conj ex_ones ex_distinct))). Qed.

(** With equal dispersions, such as those every layer starts with, a one is credited more than once, and the
    "fractions" add up to more than 1. *)
Theorem C108_ties_refuted : exists alphas As Bs x T N D L e s', samples_ok alphas As Bs T N D L /\ has_shape2 x N D /\ ones x N D <> [] /\ (0 < T)%nat /\
  (forall t l, (t < T)%nat -> (l <= L)%nat -> 0 < nth l (nth t alphas []) 0 < 1) /\
  maxmachine_relevance (RL (Some None) (Some alphas) (Some As) (Some Bs) x) "mcmc" = Ok (e, s') /\ 1 < Rsum (fun l => nth l e 0) (seq 0 L) /\
  ~ is_latent_total alphas As Bs x T N D L (Rsum (fun l => nth l e 0) (seq 0 L)).
Proof. exact C108_ties_refuted_lemma. Qed.
Print Assumptions C108_ties_refuted.

(** The clamped dimension is not given the ones nothing else explains: its value is its mean dispersion divided by
    the number of ones. *)
Theorem C108_clamped : forall alphas As Bs x T N D L s e s', samples_ok alphas As Bs T N D L -> has_shape2 x N D -> ones x N D <> [] -> (0 < T)%nat ->
  s = RL (Some None) (Some alphas) (Some As) (Some Bs) x -> maxmachine_relevance s "mcmc" = Ok (e, s') ->
  nth L e 0 = Rsum (fun t => nth L (nth t alphas []) 0) (seq 0 T) / INR T / INR (List.length (ones x N D)).
Proof. exact C108_clamped_lemma. Qed.
Print Assumptions C108_clamped.

(** C108 in full asks that all values together add up to the expected output of the MaxMachine at the ones. *)
Theorem C108_total_refuted : ~ (forall alphas As Bs x T N D L s e s', samples_ok alphas As Bs T N D L -> has_shape2 x N D -> ones x N D <> [] -> (0 < T)%nat ->
  distinct_dispersions alphas T L -> s = RL (Some None) (Some alphas) (Some As) (Some Bs) x -> maxmachine_relevance s "mcmc" = Ok (e, s') ->
  is_total alphas As Bs x T N D L (Rsum (fun l => nth l e 0) (seq 0 (S L)))).
Proof. exact C108_total_refuted_lemma. Qed.
Print Assumptions C108_total_refuted.

(** It also asks that the values be available for every inferred layer, and belong to the traces at hand. A layer has
    no attribute [eigenvals], so the function raises, whatever the traces; if the caller sets it to None, the first
    result is returned ever after, whatever the traces have become. *)
Theorem C108_available_refuted :
  (forall x a z u m, maxmachine_relevance (RL (eigenvals (constructed x)) a z u x) m = Err AttributeError) /\
  (forall s e s' m, maxmachine_relevance s m = Ok (e, s') ->
    forall a z u x m', maxmachine_relevance (RL (eigenvals s') a z u x) m' = Ok (e, RL (eigenvals s') a z u x)) /\
  (forall s m, eigenvals s = Some None -> m <> "mcmc"%string ->
    maxmachine_relevance s m = Err (if String.eqb m "plugin" then TypeError else UnboundLocalError)).
Proof. exact (conj (fun x a z u m => eq_refl) (conj C108_cached_lemma C108_types_lemma)). Qed.
Print Assumptions C108_available_refuted.

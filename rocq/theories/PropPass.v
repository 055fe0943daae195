(** C80: a whole pass of updates over the factors of a machine. *)
From Coq Require Import String.
From Verif Require Import Base BaseR Spec SpecR Invariance Machine Dispatch Inference SpecMachine SpecOrdinary SpecPass OrdinaryProofs7 MachineExamples OrdinaryExamples PassProofs RunProofs PassExamples.
Local Open Scope R_scope.

(** C80. One pass of Gibbs updates over any set of factors of an ordinary machine, in whatever order the permutation
    gives, leaves their joint posterior (given the remaining factors, the data, the dispersions and the fixed entries)
    invariant: if the values of all these factors are distributed as that posterior before the pass, they are so
    afterwards. All configurations have positive weight, and the present one is among them. *)
Theorem C80 : forall outs o w s fs, outputs outs -> random o -> ordinary o w -> NoDup fs -> (forall i, In i fs -> is_factor w i /\ sfct (get_mat w i) <> None) ->
  let order := o_perm o (clock w) fs in let states := choices (map (values_of w) fs) in let weight := fun c => joint outs (puts w fs c) in
  (forall c, In c states -> 0 < weight c) /\ In (map (matrix_of w) fs) states /\
  preserves (fun c rss h => after fs h (sweep (with_batches o w (S (clock w)) order rss) fs (set_wd s (puts w fs c)))) (map (draws_needed w) order) weight states.
Proof. exact C80_lemma. Qed.
Print Assumptions C80.
(** A stack of two layers: the four factors together. *)
Example C80_example : outputs the_outputs /\ random demo /\ exists w, ordinary demo w /\ NoDup [1; 2; 3; 4]%nat /\ forall i, In i [1; 2; 3; 4]%nat -> is_factor w i /\ sfct (get_mat w i) <> None.
Proof. split; [exact the_outputs_ok|]. split; [exact demo_random|]. exact stack_ready. Qed.

(** C81. A whole call of infer on an ordinary machine whose dispersions are held fixed samples from the posterior: if
    the unfixed factors start out distributed as their joint posterior (given the fixed ones, the data, the dispersions
    and the fixed entries), every sample that infer records has that distribution, for every settings, number of
    samples and sequence of update orders. The number of passes, and so of draws, is known in advance. *)
Theorem C81 : forall outs o cfg n s, outputs outs -> random o -> ordinary o (wd s) -> usable cfg -> annealable cfg (wd s) -> (forall l, (l < List.length (layers (wd s)))%nat -> lfixed (lbda (get_lay (wd s) l)) = true) ->
  exists F, forall fuel j, (F <= fuel)%nat -> (j < n)%nat ->
  let w := wd s in let fs := unfixed w in let pl := plan o fs (burn_in_passes cfg + n) (clock w) in let states := choices (map (values_of w) fs) in let weight := fun c => joint outs (puts w fs c) in
  (forall c, In c states -> 0 < weight c) /\ In (map (matrix_of w) fs) states /\
  preserves (fun c rss h => after_run fs j h (infer fuel (with_plan o w pl rss) cfg n (set_wd s (puts w fs c)))) (map (draws_needed w) (map snd pl)) weight states.
Proof. exact C81_all. Qed.
Print Assumptions C81.
Example C81_example : outputs the_outputs /\ random demo /\ ordinary demo (held stack) /\ unfixed (held stack) = [1; 2; 3; 4]%nat /\ (forall l, (l < List.length (layers (held stack)))%nat -> lfixed (lbda (get_lay (held stack) l)) = true) /\ usable demo_settings /\ annealable demo_settings (held stack) /\ burn_in_passes demo_settings = 4%nat.
Proof. split; [exact the_outputs_ok|]. split; [exact demo_random|]. destruct held_example as (H1 & H2 & H3 & H4 & H5). exact (conj H1 (conj H2 (conj H3 (conj H4 (conj held_annealable H5))))). Qed.

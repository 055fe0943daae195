(** Specification: configurations one entry apart, distributions without ties between them, and what it means for runs
    to forget where they started. *)
From Coq Require Import String Relations Permutation.
From Verif Require Import Base BaseR SpecR Machine Dispatch Inference SpecMachine SpecOrdinary SpecPass SpecPredict.
Local Open Scope R_scope.

(** The same configuration but for the sign of one entry of one matrix. *)
Definition one_apart (c c' : list mat) : Prop :=
  exists k n l, (k < List.length c)%nat /\ (n < nrows (nth k c []))%nat /\ (l < ncols (nth k c []))%nat /\
    c' = upd c k (set2 (nth k c []) n l (- at2 (nth k c []) n l)).
(** No two configurations one entry apart are equally probable. *)
Definition no_ties (weight : list mat -> R) (states : list (list mat)) : Prop :=
  forall c c', In c states -> In c' states -> one_apart c c' -> weight c <> weight c'.
(** The average of [h] under the distribution with the given weights. *)
Definition average_over (weight : list mat -> R) (states : list (list mat)) (h : list mat -> R) : R :=
  Rsum (fun c => weight c * h c) states / Rsum weight states.

Section Runs.
Context (outs : string -> list vec -> nat -> Z) (s : state).
Let w := wd s.
Let fs := unfixed w.
(** All configurations of the unfixed factors, and their posterior weights. *)
Definition configurations : list (list mat) := choices (map (values_of w) fs).
Definition posterior (c : list mat) : R := joint outs (puts w fs c).
(** The draws that a call of infer with n samples uses, and the call with these draws, started from configuration c. *)
Definition run_draws (o : oracle) (cfg : settings) (n : nat) : list nat :=
  map (draws_needed w) (map snd (plan o fs (burn_in_passes cfg + n) (clock w))).
Definition run_from (fuel : nat) (o : oracle) (cfg : settings) (n : nat) (c : list mat) (rss : list (list R)) : option (res state) :=
  infer fuel (with_plan o w (plan o fs (burn_in_passes cfg + n) (clock w)) rss) cfg n (set_wd s (puts w fs c)).

(** Samples recorded late enough are, up to any error, distributed as the posterior: whatever is averaged, wherever the
    run starts, and whatever the settings, the number of samples and the orders of the updates. *)
Definition forgets : Prop :=
  forall B eps, 0 < eps -> exists T, forall o cfg n, random o -> usable cfg -> annealable cfg w -> exists F, forall fuel j, (F <= fuel)%nat -> (j < n)%nat -> (T <= burn_in_passes cfg + S j)%nat ->
  forall h c, (forall c, In c configurations -> Rabs (h c) <= B) -> In c configurations ->
  exists E, is_EE (run_draws o cfg n) (fun rss => after_run fs j h (run_from fuel o cfg n c rss)) E /\ Rabs (E - average_over posterior configurations h) <= eps.
(** Averages over the recorded samples converge in mean square to posterior averages as the number of samples grows,
    uniformly as above; so do the posterior means that the machine reports. *)
Definition consistent : Prop :=
  forall B eps, 0 < eps -> exists n0, forall o cfg n, (n0 <= n)%nat -> random o -> usable cfg -> annealable cfg w -> exists F, forall fuel, (F <= fuel)%nat ->
  forall h c, (forall c, In c configurations -> Rabs (h c) <= B) -> In c configurations ->
  exists E, is_EE (run_draws o cfg n) (fun rss => (run_mean fs n h (run_from fuel o cfg n c rss) - average_over posterior configurations h) ^ 2) E /\ E <= eps.
Definition consistent_means : Prop :=
  forall eps, 0 < eps -> exists n0, forall o cfg n, (n0 <= n)%nat -> random o -> usable cfg -> annealable cfg w -> exists F, forall fuel, (F <= fuel)%nat ->
  forall i r col c, In i fs -> (r < nrows (matrix_of w i))%nat -> (col < ncols (matrix_of w i))%nat -> In c configurations ->
  exists E, is_EE (run_draws o cfg n) (fun rss => (reported_mean i r col (run_from fuel o cfg n c rss) - average_over posterior configurations (fun c => IZR (at2 (nth (place i fs) c []) r col))) ^ 2) E /\ E <= eps.
(** The opposite: every recorded sample is the starting configuration with all its free entries negated once per pass,
    whatever is drawn. *)
Definition only_negates : Prop :=
  forall o cfg n, random o -> usable cfg -> annealable cfg w -> exists F, forall fuel c rss, (F <= fuel)%nat -> In c configurations -> Forall (Forall is_draw) rss ->
  exists s', run_from fuel o cfg n c rss = Some (Ok s') /\ forall j k a b, (j < n)%nat -> (k < List.length fs)%nat -> let i := nth k fs 0%nat in (a < nrows (matrix_of w i))%nat -> (b < ncols (matrix_of w i))%nat ->
  at2 (nth k (recorded fs j s') []) a b =
    (if ((at2 (fixed_of w i) a b =? 1)%Z || Nat.even (burn_in_passes cfg + S j))%bool then at2 (nth k c []) a b else (- at2 (nth k c []) a b)%Z).
(** ** Ties *)
(** The entries that updates of the matrices [ms], one after the other, go through: row by row, without those held fixed. *)
Definition update_sequence (ms : list nat) : list (nat * (nat * nat)) :=
  filter (fun e => negb (at2 (fixed_of w (fst e)) (fst (snd e)) (snd (snd e)) =? 1)%Z)
    (flat_map (fun i => map (fun p => (i, p)) (cells (nrows (matrix_of w i)) (ncols (matrix_of w i)))) ms).
(** Configuration c with one entry, or with several entries one after the other, negated. *)
Definition negate_at (c : list mat) (e : nat * (nat * nat)) : list mat :=
  let k := place (fst e) fs in upd c k (set2 (nth k c []) (fst (snd e)) (snd (snd e)) (- at2 (nth k c []) (fst (snd e)) (snd (snd e)))).
Definition negate (c : list mat) (es : list (nat * (nat * nat))) : list mat := fold_left negate_at es c.
(** What the updates [es] tell apart: two configurations that differ in one of the entries and are not equally probable,
    as they would be after negating all the entries updated later. *)
Definition told_apart (es : list (nat * (nat * nat))) (b b' : list mat) : Prop :=
  exists before e later c, es = (before ++ e :: later)%list /\ In c configurations /\ posterior (negate_at c e) <> posterior c /\
    b = negate c later /\ b' = negate (negate_at c e) later.
(** Some number of passes links all configurations by steps of this kind, whatever the orders of the updates. *)
Definition mixing : Prop :=
  exists m, forall orders, List.length orders = m -> Forall (fun order => Permutation order fs) orders ->
  forall c c', In c configurations -> In c' configurations -> clos_refl_sym_trans _ (told_apart (update_sequence (concat orders))) c c'.

(** ** Random orders *)
(** All orders in which a pass can go through the unfixed matrices; the random stream in which the passes of a run go
    through them in the given orders; and the mean over independent uniformly random orders of m passes. *)
Definition all_orders (perms : list (list nat)) : Prop := NoDup perms /\ forall order, In order perms <-> Permutation order fs.
Definition with_orders (o : oracle) (orders : list (list nat)) : oracle :=
  {| o_perm := fun t l => if list_eq_dec Nat.eq_dec l fs then nth ((t - clock w) / S (List.length fs)) orders fs else l;
     o_cell := o_cell o; o_feature := o_feature o; o_ibp := o_ibp o; o_init := o_init o; o_argsort := o_argsort o; o_memory := o_memory o |}.
Definition mean_orders (perms : list (list nat)) (m : nat) (f : list (list nat) -> R) : R :=
  Rsum f (choices (repeat perms m)) / INR (List.length (choices (repeat perms m))).
(** As [forgets], [consistent] and [consistent_means], on average over the orders as well. *)
Definition forgets_on_average : Prop :=
  forall perms, all_orders perms -> forall B eps, 0 < eps -> exists T, forall o cfg n, random o -> usable cfg -> annealable cfg w -> exists F, forall fuel j, (F <= fuel)%nat -> (j < n)%nat -> (T <= burn_in_passes cfg + S j)%nat ->
  forall h c, (forall c, In c configurations -> Rabs (h c) <= B) -> In c configurations ->
  exists E, (forall orders, In orders (choices (repeat perms (burn_in_passes cfg + n))) -> is_EE (run_draws (with_orders o orders) cfg n) (fun rss => after_run fs j h (run_from fuel (with_orders o orders) cfg n c rss)) (E orders)) /\
    Rabs (mean_orders perms (burn_in_passes cfg + n) E - average_over posterior configurations h) <= eps.
Definition consistent_on_average : Prop :=
  forall perms, all_orders perms -> forall B eps, 0 < eps -> exists n0, forall o cfg n, (n0 <= n)%nat -> random o -> usable cfg -> annealable cfg w -> exists F, forall fuel, (F <= fuel)%nat ->
  forall h c, (forall c, In c configurations -> Rabs (h c) <= B) -> In c configurations ->
  exists E, (forall orders, In orders (choices (repeat perms (burn_in_passes cfg + n))) -> is_EE (run_draws (with_orders o orders) cfg n) (fun rss => (run_mean fs n h (run_from fuel (with_orders o orders) cfg n c rss) - average_over posterior configurations h) ^ 2) (E orders)) /\
    mean_orders perms (burn_in_passes cfg + n) E <= eps.
Definition consistent_means_on_average : Prop :=
  forall perms, all_orders perms -> forall eps, 0 < eps -> exists n0, forall o cfg n, (n0 <= n)%nat -> random o -> usable cfg -> annealable cfg w -> exists F, forall fuel, (F <= fuel)%nat ->
  forall i r col c, In i fs -> (r < nrows (matrix_of w i))%nat -> (col < ncols (matrix_of w i))%nat -> In c configurations ->
  exists E, (forall orders, In orders (choices (repeat perms (burn_in_passes cfg + n))) -> is_EE (run_draws (with_orders o orders) cfg n) (fun rss => (reported_mean i r col (run_from fuel (with_orders o orders) cfg n c rss) - average_over posterior configurations (fun c => IZR (at2 (nth (place i fs) c []) r col))) ^ 2) (E orders)) /\
    mean_orders perms (burn_in_passes cfg + n) E <= eps.
(** Every two configurations are linked by what some sequences of passes tell apart. *)
Definition linked : Prop :=
  forall c c', In c configurations -> In c' configurations ->
  clos_refl_sym_trans _ (fun b b' => exists orders, Forall (fun order => Permutation order fs) orders /\ told_apart (update_sequence (concat orders)) b b') c c'.
End Runs.

(** Vocabulary for where the noise of a request comes from. *)
From Coq Require Import String.
From Verif Require Import Prelude ModelPrivacy ModelHalo.
Open Scope Z_scope.

(** The generator after [n] draws of a seed. *)
Fixpoint after (X : externals) (n : nat) (g : rng X) : rng X :=
  match n with O => g | S k => after X k (snd (rng_integers X g)) end.

(** A call that returns has drawn exactly [n] seeds, and nothing else, from the generator. *)
Definition draws_seeds {X A} (m : M X A) (n : nat) : Prop :=
  forall w a w', m w = (Ok a, w') -> w_rng w' = after X n (w_rng w).

(** What a call returns or raises, and what it draws, depends on the generator alone and not on
    the privacy that was spent before. *)
Definition ignores_spent_privacy {X A} (m : M X A) : Prop :=
  forall w v, w_rng w = w_rng v ->
    fst (m w) = fst (m v) /\ w_rng (snd (m w)) = w_rng (snd (m v)).

(** [n] is the integer nearest to [x]; half way it is the even one. *)
Definition rounds_to (x : Q) (n : Z) : Prop :=
  (inject_Z n - (1 # 2) <= x <= inject_Z n + (1 # 2))%Q /\
  ((x == inject_Z n - (1 # 2))%Q \/ (x == inject_Z n + (1 # 2))%Q -> Z.even n = true).

(** [r] is the least of the first [k] estimates, rounded, and not below zero. *)
Definition least_of_first (est : list Q) (k : nat) (r : Z) : Prop :=
  (forall i e n, (i < k)%nat -> nth_error est i = Some e -> rounds_to e n -> r <= Z.max n 0) /\
  exists i e n, (i < k)%nat /\ nth_error est i = Some e /\ rounds_to e n /\ r = Z.max n 0.

(** The events of noise with the given (epsilon, delta) pairs. *)
Definition events_of (mechanism : string) (l : list (Q * Q)) : list noising_event :=
  map (fun ed => {| ev_budget := {| epsilon := fst ed; delta := snd ed |};
                    ev_mechanism := mechanism;
                    ev_buckets := {| smallest_index := 0; sampling_rate := 1 |} |}) l.

(** The tracker [t'] is [t] with these events recorded after its own. *)
Definition records (t t' : tracker) (es : list noising_event) : Prop :=
  tr_events t' = tr_events t ++ es.

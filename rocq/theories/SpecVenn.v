(** Specification vocabulary for Venn diagram regions. *)
From Coq Require Import Sorted.
From Verif Require Import Prelude ModelReachPoint ModelData SpecData ModelHalo.
Open Scope Z_scope.

(** Publisher [i] (counting from 0) spends a non-zero amount and shows [user] at least one
    impression at that spend. *)
Definition reached_by (logs : list (list row)) (spends : list Q) (user i : Z) : Prop :=
  exists log s, 0 <= i /\ nth_error logs (Z.to_nat i) = Some log /\
    nth_error spends (Z.to_nat i) = Some s /\ ~ (s == 0)%Q /\ 1 <= seen_at_spend user log s.

Definition active (spends : list Q) (i : Z) : Prop :=
  exists s, 0 <= i /\ nth_error spends (Z.to_nat i) = Some s /\ ~ (s == 0)%Q.

(** [user] is in the region written in binary as [r]: the publishers that reach them are
    exactly the bits of [r]. *)
Definition in_region (logs : list (list row)) (spends : list Q) (r user : Z) : Prop :=
  forall i, 0 <= i -> (Z.testbit r i = true <-> reached_by logs spends user i).

(** Impressions of [user] over the publishers with non-zero spend. *)
Definition active_seen (user : Z) (log : list row) (s : Q) : Z :=
  if Qeq_bool s 0 then 0 else seen_at_spend user log s.

(** [h] is a HaloSimulator over the data set of [logs]. *)
Definition is_halo_of (logs : list (list row)) (h : halo) : Prop :=
  exists d fractions ll, is_data_set_of logs d /\ mk_halo d fractions ll = Ok h.

(** Region [r] contains a publisher of [ids]. *)
Definition meets (ids : list Z) (r : Z) : bool := existsb (fun i => Z.testbit r i) ids.

(** Total of the regions of [table] that contain a publisher of [ids]. *)
Definition sum_meeting (ids : list Z) (table : list (Z * Q)) : Q :=
  Qsum (map snd (filter (fun rv => meets ids (fst rv)) table)).

(** [ids] is a non-empty set of publishers with non-zero spend, listed in increasing order. *)
Definition buyable (spends : list Q) (ids : list Z) : Prop :=
  ids <> [] /\ StronglySorted Z.lt ids /\ forall i, In i ids -> active spends i.

(** Publisher [i]'s entry of [l] if [i] is in [ids], and zero otherwise. *)
Definition restricted_to {A} (zero : A) (ids : list Z) (l l' : list A) : Prop :=
  length l' = length l /\
  forall i x, nth_error l i = Some x ->
    (In (Z.of_nat i) ids -> nth_error l' i = Some x) /\
    (~ In (Z.of_nat i) ids -> nth_error l' i = Some zero).

(** Hypotheses for a simulation without sampling error and noise: all users are sampled,
    sampling the whole population returns it, noise is zero and the normal distribution
    returns its mean. *)
Definition noiseless (X : externals) : Prop :=
  (forall g n ll v g', 0 <= n -> rng_multinomial X g n ll = (Ok v, g') ->
     Z.of_nat (length (filter (fun x => x =? 1) v)) = n) /\
  (forall g pop v g', rng_hypergeometric X g pop (Zsum pop) = (Ok v, g') -> v = pop) /\
  (forall g mean sd x g', rng_normal X g mean sd = (Ok x, g') -> (x == inject_Z mean)%Q) /\
  (forall e seed n z, geometric_noise X e seed n = Ok z -> z = 0).

(** The external code does not raise. *)
Definition total_externals (X : externals) : Prop :=
  (forall g n ll, exists v g', rng_multinomial X g n ll = (Ok v, g')) /\
  (forall g pop n, 0 <= n <= Zsum pop -> exists v g', rng_hypergeometric X g pop n = (Ok v, g')) /\
  (forall g mean sd, exists x g', rng_normal X g mean sd = (Ok x, g')) /\
  (forall e seed n, exists z, geometric_noise X e seed n = Ok z) /\
  (forall ll n, exists s, ll_std X ll n = Ok s).

(** Every impression costs something. *)
Definition positive_prices (logs : list (list row)) : Prop :=
  Forall (Forall (fun r => (0 < snd r)%Q)) logs.

(** The point that a table of regions gives for a set of publishers. *)
Definition point_of (h : halo) (spends : list Q) (imps : list Z) (table : list (Z * Q)) (ids : list Z)
    (p : reach_point Z Q) : Prop :=
  restricted_to 0 ids imps (rp_impressions p) /\
  (exists sp, rp_spends p = Some sp /\ restricted_to 0%Q ids spends sp) /\
  rp_kplus p = [sum_meeting ids table] /\ rp_universe p = Some (ds_universe (h_data_set h)).

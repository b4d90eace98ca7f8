(** Vocabulary for simulations whose sketch library makes no error. *)
From Verif Require Import Prelude ModelReachPoint ModelData SpecData ModelHalo SpecHalo.
Open Scope Z_scope.

(** [times sk u] is how often user [u] was added to [sk]: an empty sketch holds nobody,
    adding ids adds their multiplicities, merging adds up, and the estimator counts the users
    that were added at least k times, for k = 1, ..., max_freq. *)
Definition exact_sketches (X : externals) (times : sketch X -> Z -> Z) : Prop :=
  (forall ll u, times (sketch_new X ll) u = 0) /\
  (forall sk ids u, times (sketch_add X sk ids) u =
     times sk u + Z.of_nat (count_occ Z.eq_dec ids u)) /\
  (forall a b s u, sketch_merge X a b = Ok s -> times s u = times a u + times b u) /\
  (forall cfg sk l, 1 <= ec_max_freq cfg -> estimate X cfg sk = Ok l ->
     Z.of_nat (length l) = ec_max_freq cfg /\
     forall k x, nth_error l k = Some x ->
       exists n, card_is (fun u => Z.of_nat k + 1 <= times sk u) n /\ (x == inject_Z n)%Q).

(** [h] is a HaloSimulator over the data set of [logs] with the given campaign spend
    fractions. *)
Definition is_halo_with (logs : list (list row)) (fractions : list Q) (h : halo) : Prop :=
  exists d ll, is_data_set_of logs d /\ mk_halo d fractions ll = Ok h.

(** [c] is the fraction [f] of the highest price of [log]. *)
Definition campaign_of (log : list row) (f c : Q) : Prop :=
  exists top, In top (map snd log) /\ (forall r, In r log -> (snd r <= top)%Q) /\ (c == f * top)%Q.

(** The campaign spends of all publishers. *)
Definition campaigns_of (logs : list (list row)) (fractions campaigns : list Q) : Prop :=
  length campaigns = length logs /\ (length logs <= length fractions)%nat /\
  forall i log f c, nth_error logs i = Some log -> nth_error fractions i = Some f ->
    nth_error campaigns i = Some c -> campaign_of log f c.

(** The smaller of two amounts, publisher by publisher. *)
Definition at_most (campaigns spends : list Q) : list Q :=
  map (fun cs => if Qle_bool (snd cs) (fst cs) then snd cs else fst cs) (combine campaigns spends).

(** [p] reports, for k = 1, ..., [m], how many users were seen at least k times, unless that
    would be no less than the number of impressions. Then it reports one reach less than the
    impressions, but at least 1, and nobody reached twice. *)
Definition exact_reaches (seen : Z -> Z) (impressions m : Z) (p : reach_point Z Z) : Prop :=
  max_frequency p = m /\
  exists n1, card_is (fun u => 1 <= seen u) n1 /\
    (n1 < impressions ->
       forall k, 1 <= k <= m -> exists n, card_is (fun u => k <= seen u) n /\ reach p k = Ok n) /\
    (impressions <= n1 ->
       reach p 1 = Ok (Z.max (impressions - 1) 1) /\ forall k, 2 <= k <= m -> reach p k = Ok 0).

(** [p] is an exact measurement of the publishers with impression logs [logs] at [spends]. *)
Definition measured (logs : list (list row)) (spends : list Q) (m : Z) (p : reach_point Z Z) : Prop :=
  rp_spends p = Some spends /\ rp_impressions p = bought logs spends /\
  exact_reaches (fun u => total_seen (seen_at_spend u) logs spends) (Zsum (bought logs spends)) m p.

(** [l'] is [l] with a zero at position [i]. *)
Definition zeroed (i : nat) (l l' : list Q) : Prop :=
  length l' = length l /\ nth_error l' i = Some 0%Q /\
  forall j, j <> i -> nth_error l' j = nth_error l j.

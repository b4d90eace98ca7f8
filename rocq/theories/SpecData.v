(** Independent specification vocabulary for publisher logs and data sets. Nothing here
    uses the functions of the model, except that [is_publisher_of] and [is_data_set_of]
    say that an object was built by the constructors. *)
From Coq Require Import String.
From Verif Require Import Prelude ModelReachPoint ModelData.
Open Scope Z_scope.

(** [n] is the number of integers that satisfy [P]. *)
Definition card_is (P : Z -> Prop) (n : Z) : Prop :=
  exists S : list Z, NoDup S /\ (forall u, In u S <-> P u) /\ Z.of_nat (List.length S) = n.

(** Number of impressions of [user] in [log] priced at most [s]. *)
Definition seen_at_spend (user : Z) (log : list row) (s : Q) : Z :=
  Z.of_nat (List.length (filter (fun r => (fst r =? user) && Qle_bool (snd r) s) log)).

(** Position [j] of the log is bought before position [i]: it is cheaper, or it has the same
    price and comes first in the log. *)
Definition bought_before (log : list row) (j i : nat) : bool :=
  let pj := snd (nth j log (0, 0%Q)) in
  let pi := snd (nth i log (0, 0%Q)) in
  if (j <? i)%nat then Qle_bool pj pi else negb (Qle_bool pi pj).

(** Number of positions bought before position [i]. *)
Definition rank (log : list row) (i : nat) : Z :=
  Z.of_nat (List.length (filter (fun j => bought_before log j i) (seq 0 (List.length log)))).

(** Number of impressions of [user] among the [n] cheapest of [log]. *)
Definition seen_at_impressions (user : Z) (log : list row) (n : Z) : Z :=
  Z.of_nat (List.length (filter
    (fun i => (fst (nth i log (0, 0%Q)) =? user) && (rank log i <? n)) (seq 0 (List.length log)))).

(** Total over the publishers. *)
Fixpoint total_seen {B} (seen : list row -> B -> Z) (logs : list (list row)) (v : list B) : Z :=
  match logs, v with
  | log :: logs', b :: v' => seen log b + total_seen seen logs' v'
  | _, _ => 0
  end.

Definition is_publisher_of (log : list row) (p : publisher_data) : Prop :=
  exists rn name, mk_publisher rn log name = Ok p.

(** [d] is a DataSet built from publishers with impression logs [logs]. *)
Definition is_data_set_of (logs : list (list row)) (d : data_set) : Prop :=
  exists pubs name universe,
    Forall2 is_publisher_of logs pubs /\ mk_data_set pubs name universe = Ok d.

(** All prices in increasing order of the log. *)
Fixpoint increasing_prices (log : list row) : Prop :=
  match log with
  | x :: ((y :: _) as r) => (snd x <= snd y)%Q /\ increasing_prices r
  | _ => True
  end.

(** Number of impressions priced at most [s]. *)
Definition bought_at_spend (log : list row) (s : Q) : Z :=
  Z.of_nat (List.length (filter (fun r => Qle_bool (snd r) s) log)).

Definition distinct_prices (log : list row) : Prop :=
  ForallOrdPairs (fun x y => ~ (snd x == snd y)%Q) log.


(** Model of src/data_generators/publisher_data.py, src/data_generators/data_set.py (in
    memory part) and src/models/ground_truth_reach_curve_model.py. *)
From Coq Require Import String.
From Verif Require Import Prelude ModelReachPoint.
Open Scope Z_scope.

(** A row of an impression log: (user id, total spend that causes the impression). *)
Notation row := (Z * Q)%type.

(** publisher_data.py 79: [list.sort(key=lambda x: x[1])]; Python's sort is stable, and
    so is this insertion sort. *)
Fixpoint insert_row (x : row) (l : list row) : list row :=
  match l with
  | [] => [x]
  | y :: r => if Qleb (snd x) (snd y) then x :: y :: r else y :: insert_row x r
  end.
Fixpoint sort_rows (l : list row) : list row :=
  match l with [] => [] | x :: r => insert_row x (sort_rows r) end.

(** publisher_data.py 78-85: the attributes of PublisherData. *)
Record publisher_data : Type := {
  pd_data : list row;
  pd_spends : list Q;
  pd_max_spend : Q;
  pd_max_reach : Z;
  pd_name : string
}.

(** Python's [max] of a list: the first of the largest elements, ValueError if empty. *)
Definition py_maxQ (l : list Q) : result Q :=
  match l with
  | [] => Err ValueError
  | x :: r => Ok (fold_left (fun m y => if Qltb m y then y else m) r x)
  end.

Definition truthy (s : string) : bool := match s with EmptyString => false | _ => true end.

(** publisher_data.py 56-85: constructor. [random_name] is what the formatted call to
    numpy's randint would give. [_spends] is taken from the log in input order, as in the
    code (line 83). *)
Definition mk_publisher (random_name : string) (log : list row) (name : option string)
  : result publisher_data :=
  ms <- py_maxQ (map snd log) ;;
  Ok {| pd_data := sort_rows log;
        pd_spends := map snd log;
        pd_max_spend := ms;
        pd_max_reach := Z.of_nat (count_distinct (map fst log));
        pd_name := match name with
                   | Some n => if truthy n then n else random_name
                   | None => random_name end |}.

(** publisher_data.py 87-90 *)
Definition max_impressions (p : publisher_data) : Z := Z.of_nat (length (pd_data p)).

(** publisher_data.py 112-122 *)
Definition spend_by_impressions (p : publisher_data) (n : Z) : result Q :=
  if n =? 0 then Ok 0%Q
  else r <- py_index (pd_data p) (Z.min (max_impressions p) n - 1) ;; Ok (snd r).

(** publisher_data.py 133: Python's bisect_right, [fuel] bounds the loop (proved to be
    enough in DataLemmas). *)
Fixpoint bisect_loop (fuel : nat) (l : list Q) (x : Q) (lo hi : nat) : nat :=
  match fuel with
  | O => lo
  | S f =>
      if (lo <? hi)%nat then
        let mid := Nat.div2 (lo + hi) in
        match nth_error l mid with
        | Some y => if Qltb x y then bisect_loop f l x lo mid
                    else bisect_loop f l x (S mid) hi
        | None => lo
        end
      else lo
  end.
Definition bisect_right (l : list Q) (x : Q) : nat :=
  bisect_loop (length l) l x 0 (length l).

(** publisher_data.py 124-133 *)
Definition impressions_by_spend (p : publisher_data) (s : Q) : Z :=
  Z.of_nat (bisect_right (pd_spends p) s).

(** publisher_data.py 135-144 *)
Definition user_counts_by_impressions (p : publisher_data) (n : Z) : zdict :=
  counter (map fst (py_slice_to (pd_data p) n)).

(** publisher_data.py 146-155 *)
Definition user_counts_by_spend (p : publisher_data) (s : Q) : zdict :=
  counter (map fst (filter (fun r => Qleb (snd r) s) (pd_data p))).

(** data_set.py 54-91: the attributes of DataSet. *)
Record data_set : Type := {
  ds_data : list publisher_data;
  ds_maximum_reach : Z;
  ds_name : string;
  ds_universe : Z
}.

(** data_set.py 75-78 *)
Definition total_audience (pubs : list publisher_data) : list Z :=
  flat_map (fun p => map fst (pd_data p)) pubs.

(** data_set.py 54-91: constructor. With no name the code calls [randint], which the
    module does not import, so Python raises NameError. *)
Definition mk_data_set (pubs : list publisher_data) (name : option string)
    (universe : option Z) : result data_set :=
  let mr := Z.of_nat (count_distinct (total_audience pubs)) in
  n <- match name with
       | Some n => if truthy n then Ok n else Err NameError
       | None => Err NameError end ;;
  Ok {| ds_data := pubs; ds_maximum_reach := mr; ds_name := n;
        ds_universe := match universe with None => 2 * mr | Some u => u end |}.

(** data_set.py 93-96 *)
Definition publisher_count (d : data_set) : nat := length (ds_data d).

(** data_set.py 113-128: the vector is indexed, so a short vector raises IndexError and a
    long one is truncated. *)
Definition ds_spend_by_impressions (d : data_set) (imps : list Z) : result (list Q) :=
  mapM (fun ip => n <- py_index imps (Z.of_nat (fst ip)) ;; spend_by_impressions (snd ip) n)
       (combine (seq 0 (length (ds_data d))) (ds_data d)).

(** data_set.py 130-145 *)
Definition ds_impressions_by_spend (d : data_set) (spends : list Q) : result (list Z) :=
  mapM (fun ip => s <- py_index spends (Z.of_nat (fst ip)) ;;
                  Ok (impressions_by_spend (snd ip) s))
       (combine (seq 0 (length (ds_data d))) (ds_data d)).

(** data_set.py 172-173 / 218-219: merging one publisher's counts. *)
Definition merge_counts (counts uc : zdict) : zdict :=
  fold_left (fun d kv => dict_incr d (fst kv) (snd kv)) uc counts.

(** data_set.py 177-190 *)
Definition counts_to_histogram (counts : zdict) (m : Z) : result (list Z) :=
  fc <- bump_all m (repeat 0 (Z.to_nat m)) (dict_values counts) ;;
  Ok (fold_left (accumulate_step Zops) (range_down (Z.to_nat (m - 1))) fc).

(** data_set.py 168-173: the loop of reach_by_impressions. The lengths are equal here
    (checked on line 162), so indexing by [i] is a simultaneous traversal. *)
Fixpoint rbi_loop (pubs : list publisher_data) (imps : list Z) (spends : list Q)
    (counts : zdict) : result (list Q * zdict) :=
  match pubs, imps with
  | p :: pubs', n :: imps' =>
      s <- spend_by_impressions p n ;;
      rbi_loop pubs' imps' (spends ++ [s])
               (merge_counts counts (user_counts_by_impressions p n))
  | _, _ => Ok (spends, counts)
  end.

(** data_set.py 147-175 *)
Definition reach_by_impressions (d : data_set) (imps : list Z) (m : Z)
  : result (reach_point Z Z) :=
  if negb (Nat.eqb (length imps) (publisher_count d)) then Err ValueError
  else
    '(spends, counts) <- rbi_loop (ds_data d) imps [] [] ;;
    kp <- counts_to_histogram counts m ;;
    mk_reach_point Zops imps kp (Some spends) (Some (ds_universe d)).

(** data_set.py 213-219: the loop of reach_by_spend. *)
Fixpoint rbs_loop (pubs : list publisher_data) (spends : list Q) (imps : list Z)
    (counts : zdict) : list Z * zdict :=
  match pubs, spends with
  | p :: pubs', s :: spends' =>
      let uc := user_counts_by_spend p s in
      rbs_loop pubs' spends' (imps ++ [Zsum (dict_values uc)]) (merge_counts counts uc)
  | _, _ => (imps, counts)
  end.

(** data_set.py 192-221 *)
Definition reach_by_spend (d : data_set) (spends : list Q) (m : Z)
  : result (reach_point Z Z) :=
  if negb (Nat.eqb (length spends) (publisher_count d)) then Err ValueError
  else
    let '(imps, counts) := rbs_loop (ds_data d) spends [] [] in
    kp <- counts_to_histogram counts m ;;
    mk_reach_point Zops imps kp (Some spends) (Some (ds_universe d)).

(** ground_truth_reach_curve_model.py 27-40 *)
Record ground_truth_curve : Type := {
  gt_data_set : data_set; gt_index : Z; gt_max_reach : Z }.
Definition mk_ground_truth (d : data_set) (i : Z) : result ground_truth_curve :=
  p <- py_index (ds_data d) i ;;
  Ok {| gt_data_set := d; gt_index := i; gt_max_reach := pd_max_reach p |}.

(** ground_truth_reach_curve_model.py 42-57 *)
Definition gt_by_impressions (g : ground_truth_curve) (imps : list Z) (m : Z)
  : result (reach_point Z Z) :=
  match imps with
  | [n] => v <- py_set (repeat 0 (publisher_count (gt_data_set g))) (gt_index g) n ;;
           reach_by_impressions (gt_data_set g) v m
  | _ => Err ValueError
  end.

(** ground_truth_reach_curve_model.py 59-73 *)
Definition gt_by_spend (g : ground_truth_curve) (spends : list Q) (m : Z)
  : result (reach_point Z Z) :=
  match spends with
  | [s] => v <- py_set (repeat 0%Q (publisher_count (gt_data_set g))) (gt_index g) s ;;
           reach_by_spend (gt_data_set g) v m
  | _ => Err ValueError
  end.

(** ground_truth_reach_curve_model.py 75-76 *)
Definition gt_impressions_for_spend (g : ground_truth_curve) (s : Q) : result Z :=
  p <- py_index (ds_data (gt_data_set g)) (gt_index g) ;; Ok (impressions_by_spend p s).

(** Model of src/models/reach_point.py. *)
From Verif Require Import Prelude.

(** reach_point.py 25-60: the attributes of a ReachPoint. [I] is the type of the
    impression counts (int or float), [A] that of the k+ reaches (int or float).
    [_frequencies] is computed once in the constructor, as in the code. *)
Record reach_point (I A : Type) : Type := {
  rp_impressions : list I;
  rp_kplus : list A;
  rp_frequencies : list A;
  rp_spends : option (list Q);
  rp_universe : option Z
}.
Arguments rp_impressions {I A}. Arguments rp_kplus {I A}. Arguments rp_frequencies {I A}.
Arguments rp_spends {I A}. Arguments rp_universe {I A}.

(** reach_point.py 49-52: [kplus[i] - kplus[i+1] for i in range(len(kplus) - 1)]. *)
Fixpoint diffs {A} (ops : num_ops A) (l : list A) : list A :=
  match l with
  | x :: ((y :: _) as r) => nsub ops x y :: diffs ops r
  | _ => []
  end.

(** reach_point.py 28-60: constructor. A missing and an empty list of spends are both
    falsy in Python, so both are stored as None. Simplification: numpy arrays passed as
    spends (whose truth value raises) are not modelled; callers pass lists. *)
Definition mk_reach_point {I A} (ops : num_ops A) (impressions : list I) (kplus : list A)
    (spends : option (list Q)) (universe : option Z) : result (reach_point I A) :=
  let spends' := match spends with Some [] => None | s => s end in
  let bad := match spends' with
             | Some s => negb (Nat.eqb (length impressions) (length s))
             | None => false end in
  if bad then Err ValueError
  else Ok {| rp_impressions := impressions; rp_kplus := kplus;
             rp_frequencies := diffs ops kplus; rp_spends := spends';
             rp_universe := universe |}.

(** reach_point.py 67-72: universe_size property. *)
Definition universe_size {I A} (p : reach_point I A) : result Z :=
  match rp_universe p with Some u => Ok u | None => Err ValueError end.

(** reach_point.py 74-77: max_frequency property. *)
Definition max_frequency {I A} (p : reach_point I A) : Z := Z.of_nat (length (rp_kplus p)).

(** reach_point.py 79-87: reach(k). *)
Definition reach {I A} (p : reach_point I A) (k : Z) : result A :=
  if (0 <? k) && (k <=? max_frequency p) then py_index (rp_kplus p) (k - 1)
  else Err ValueError.

(** reach_point.py 89-97: frequency(k). *)
Definition frequency {I A} (p : reach_point I A) (k : Z) : result A :=
  if (0 <? k) && (k <? max_frequency p) then py_index (rp_frequencies p) (k - 1)
  else Err ValueError.

(** reach_point.py 103-105: frequencies_with_kplus_bucket. [kplus[-1]] raises IndexError
    on an empty list. *)
Definition frequencies_with_kplus_bucket {I A} (p : reach_point I A) : result (list A) :=
  last <- py_index (rp_kplus p) (-1) ;; Ok (rp_frequencies p ++ [last]).

(** reach_point.py 107-120: zero_included_histogram, for integer reaches. *)
Definition zero_included_histogram {I} (p : reach_point I Z) : result (list Z) :=
  match rp_universe p with
  | None => Err ValueError
  | Some u => r1 <- reach p 1 ;; f <- frequencies_with_kplus_bucket p ;; Ok ((u - r1) :: f)
  end.

(** One iteration of [l[k] += l[k + 1]]. *)
Definition accumulate_step {A} (ops : num_ops A) (l : list A) (k : nat) : list A :=
  match nth_error l k, nth_error l (k + 1) with
  | Some x, Some y => set_nth k (nadd ops x y) l
  | _, _ => l
  end.

(** reach_point.py 127-141: frequencies_to_kplus_reaches. The indices of the loop are
    always within the list, so [accumulate_step] never takes its fallback branch. *)
Definition frequencies_to_kplus_reaches {A} (ops : num_ops A) (freqs : list A) : list A :=
  fold_left (accumulate_step ops) (range_down (length freqs - 1)) freqs.

(** reach_point.py 158-160: [frequency_counts[min(c, max_frequency) - 1] += 1]. *)
Definition bump (m : Z) (fc : list Z) (c : Z) : result (list Z) :=
  let i := Z.min c m - 1 in
  x <- py_index fc i ;; py_set fc i (x + 1).

Fixpoint bump_all (m : Z) (fc : list Z) (cs : list Z) : result (list Z) :=
  match cs with
  | [] => Ok fc
  | c :: r => fc' <- bump m fc c ;; bump_all m fc' r
  end.

(** reach_point.py 143-161: user_counts_to_frequencies. *)
Definition user_counts_to_frequencies (counts : zdict) (m : Z) : result (list Z) :=
  bump_all m (repeat 0 (Z.to_nat m)) (dict_values counts).

(** reach_point.py 163-181: user_counts_to_kplus_reaches. *)
Definition user_counts_to_kplus_reaches (counts : zdict) (m : Z) : result (list Z) :=
  fc <- user_counts_to_frequencies counts m ;;
  Ok (fold_left (accumulate_step Zops) (range_down (Z.to_nat (m - 1))) fc).

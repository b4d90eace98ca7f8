(** Model of UnivariateMixedPoissonOptimizer.relative_entropy in
    src/models/dirac_mixture_single_publisher_model.py. Nothing else in the library calls it. *)
From Verif Require Import Prelude ModelDirac.
Open Scope Z_scope.

(** cp.rel_entr of two numbers, x log(x/y); None is infinity. *)
Definition rel_entr (x : dirac_externals) (a b : Q) : option Q :=
  if Qltb 0 a && Qltb 0 b then Some (a * dx_log x (a / b))%Q
  else if Qeqb a 0 && Qleb 0 b then Some 0%Q
  else None.
(** cp.sum *)
Fixpoint sum_infinite (l : list (option Q)) : option Q :=
  match l with
  | [] => Some 0%Q
  | v :: r => match v, sum_infinite r with Some a, Some b => Some (a + b)%Q | _, _ => None end
  end.
(** dirac_mixture_single_publisher_model.py 206-223: relative_entropy, for one-dimensional arrays.
    Simplification: stretching arrays of length 1 is left out. *)
Definition relative_entropy (x : dirac_externals) (observed fitted : list Q) : result (option Q) :=
  if Nat.eqb (length observed) (length fitted)
  then Ok (sum_infinite (map (fun of => rel_entr x (fst of) (snd of)) (combine observed fitted)))
  else Err ValueError.
(** The same for two-dimensional arrays, given as their rows; cp.sum without an axis adds up all
    entries. *)
Definition relative_entropy_2d (x : dirac_externals) (observed fitted : list (list Q)) : result (option Q) :=
  if list_eq_dec Nat.eq_dec (map (@length Q) observed) (map (@length Q) fitted)
  then Ok (sum_infinite (map (fun rows => sum_infinite (map (fun of => rel_entr x (fst of) (snd of)) (combine (fst rows) (snd rows))))
                             (combine observed fitted)))
  else Err ValueError.

(** A small laboratory for the examples about the driver: a generator that counts, a model
    that has drawn one number and answers with it, files with a header line. *)
From Coq Require Import String Ascii.
From Verif Require Import Prelude ModelReachPoint ModelData ModelPrivacy ModelHalo ModelTestPoints
  ModelAggregator ModelFiles ModelDriver PropsHalo PropsTestPoints.
Open Scope Z_scope.

Definition toy_float : float_format :=
  {| show_float := fun q => let r := Qred q in str_of_int (Qnum r) ++ "."%char :: str_of_int (Zpos (Qden r));
     read_float := fun t => z <- py_int t ;; Ok (inject_Z z) |}.

(** Fitting draws one number, and looks at numpy's own generator. *)
Definition toy_fit (_ : strategy_descriptor) (_ : halo) (_ : budget) (gl : bool)
  : M ex_externals (Z * bool) :=
  fun w => match draw_seed w with (Ok z, w') => (Ok (if gl then z + 1 else z, gl), w') | (Err e, w') => (Err e, w') end.
Definition toy_ask (m : Z) (spends : list Q) (k : Z) : result (reach_point Q Q) * Z :=
  (mk_reach_point Qops [1%Q] (repeat (inject_Z m) (Z.to_nat k)) (Some spends) None, m).

Definition toy_md5 (s : string) : string :=
  str ("m"%char :: map (fun c => if Ascii.eqb c slash then "_"%char else c) (chars s)).

Definition toy_with (print : table -> text) (parse : text -> result table) : lab :=
  {| lab_float := toy_float; lab_halo := ex_externals;
     lab_global := bool; lab_seed_global := Z.even; lab_own := unit; lab_default_rng := fun _ => tt;
     lab_draws := diagonal_rng; lab_model := Z; lab_fit := toy_fit; lab_ask := toy_ask;
     lab_training := fun m => Ok [inject_Z m]; lab_traceback := fun _ => "traceback"%string;
     lab_print := print; lab_parse := parse;
     lab_md5 := toy_md5 |}.

(** Two impressions, at half of the spend one of the two users is reached. *)
Definition toy_data : data_set :=
  {| ds_data := [{| pd_data := [(1, (1 # 4)%Q); (2, 1%Q)]; pd_spends := [1 # 4; 1]%Q; pd_max_spend := 1;
                    pd_max_reach := 2; pd_name := "a" |}];
     ds_maximum_reach := 2; ds_name := "ds"; ds_universe := 2 |}.
Definition toy_design : data_design :=
  {| dd_names := ["ds"%string];
     dd_by_name := fun n => if String.eqb n "ds" then Ok toy_data else Err FileNotFoundError |}.
Definition toy_strategy : strategy_descriptor :=
  {| sd_strategy := "m3strategy"; sd_strategy_kwargs := []; sd_single := "goerg"; sd_single_kwargs := [];
     sd_multi := "pairwise_union"; sd_multi_kwargs := [] |}.
Definition toy_system (generator : nat) : system_parameters :=
  {| sp_fractions := [PFloat (1 # 2)];
     sp_ll := {| lp_decay_rate := PInt 13; lp_sketch_size := PInt 1000; lp_random_seed := 1 |};
     sp_generator := generator; sp_fractions_generator := None |}.
Definition toy_experiment (replica : Z) : experiment_parameters :=
  {| ep_epsilon := PFloat 1; ep_delta := PFloat (1 # 100); ep_replica_id := replica; ep_max_frequency := 1;
     ep_test_points := "grid"; ep_test_kwargs := [("grid_size"%string, VNum (PInt 1))] |}.
Definition toy_descriptor (generator : nat) (replica : Z) : trial_descriptor :=
  {| td_strategy := toy_strategy; td_system := toy_system generator; td_experiment := toy_experiment replica |}.
Definition toy_trial (generator : nat) (replica : Z) : trial :=
  {| tr_experiment_dir := "/x/exp"; tr_design := toy_design; tr_data_set := "ds";
     tr_descriptor := toy_descriptor generator replica; tr_analysis := "" |}.

(** The row of a replica when the generator has drawn [n] numbers before. *)
Definition toy_row (replica n : Z) : list (string * cell) :=
  match fst (compute_row (toy_with (fun _ => []) (fun _ => Err ValueError)) (toy_trial 0 replica) 1
               ((fun _ => n) : generators (toy_with (fun _ => []) (fun _ => Err ValueError)))) with
  | Ok r => r
  | Err _ => []
  end.

(** The printed table: a header line and for each row the replica and the mean error, which
    is 1 - n. The reader takes a file with complete lines only, such as the header alone. *)
Definition cell_named (name : string) (r : list (string * cell)) : Z :=
  match find (fun c => String.eqb (fst c) name) r with
  | Some (_, CInt z) => z
  | Some (_, CStat (Num q)) => Qround.Qfloor q
  | _ => 0
  end.
Definition toy_header : text := chars "replica_id,mean_error" ++ [newline].
Definition toy_line (r : list (string * cell)) : text :=
  str_of_int (cell_named "replica_id" r) ++ comma ::
  str_of_int (cell_named "mean_error" r) ++ [newline].
Definition toy_print (tb : table) : text := toy_header ++ flat_map toy_line tb.
Fixpoint strip_prefix (p s : text) : option text :=
  match p, s with
  | [], _ => Some s
  | x :: p', y :: s' => if Ascii.eqb x y then strip_prefix p' s' else None
  | _, _ => None
  end.
Fixpoint toy_rows (lines : list text) : result table :=
  match lines with
  | [] => Err ValueError
  | [l] => match l with [] => Ok [] | _ => Err ValueError end
  | l :: r => match split_on comma l with
              | [a; b] => x <- py_int a ;; y <- py_int b ;; rest <- toy_rows r ;;
                          Ok (toy_row x (1 - y) :: rest)
              | _ => Err ValueError
              end
  end.
Definition toy_parse (c : text) : result table :=
  match strip_prefix toy_header c with
  | Some rest => toy_rows (split_on newline rest)
  | None => Err ValueError
  end.
Definition toy : lab := toy_with toy_print toy_parse.

(** A stricter reader, which wants at least one row. *)
Definition strict_parse (c : text) : result table :=
  match toy_parse c with Ok [] => Err ValueError | r => r end.
Definition strict : lab := toy_with toy_print strict_parse.

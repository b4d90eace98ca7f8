(** C55, continued: the ground truth curve in a surface. *)
From Coq Require Import String Lqa.
From Verif Require Import Prelude ModelReachPoint ModelData SpecData DataLemmas DataLemmas2 DataLemmas3 PropsData
  ModelCurves ModelSurface ModelStack StackLemmas.
Open Scope Z_scope.

Lemma integer_of_some q z : integer_of q = Ok z <-> (q == inject_Z z)%Q.
Proof.
  split.
  - unfold integer_of. destruct (Pos.eqb_spec (Qden (Qred q)) 1) as [D|]; [|discriminate].
    intros E. injection E as <-. rewrite <- (Qred_correct q) at 1. unfold Qeq, inject_Z. cbn [Qnum Qden].
    rewrite D. lia.
  - intros E. rewrite <- (integer_of_Z z). unfold integer_of. rewrite (Qred_complete _ _ E). reflexivity.
Qed.

(** At a whole number of impressions, however it is written as a fraction, the ground truth
    curve of a publisher answers with the users whom so many impressions reach. At any other
    number it raises TypeError. *)
Theorem C55_truth_counts : forall T logs d i log g, is_data_set_of logs d -> nth_error logs i = Some log ->
  mk_ground_truth d (Z.of_nat i) = Ok g ->
  (forall x n, 0 <= n -> (x == inject_Z n)%Q ->
     exists r, c_reach (surface_curve T (GroundTruth g)) x = Ok (inject_Z r) /\
       card_is (fun u => 1 <= seen_at_impressions u log n) r) /\
  (forall x, (forall n, ~ (x == inject_Z n)%Q) -> c_reach (surface_curve T (GroundTruth g)) x = Err TypeError).
Proof.
  intros T logs d i log g Hd Hi Hg. cbn [surface_curve c_reach]. split.
  - intros x n Hn Hx. apply integer_of_some in Hx. rewrite Hx. cbn [bind].
    destruct (C42_by_impressions_is_single_publisher logs d (Z.of_nat i) log g n 1 1 Hd ltac:(lia)
      ltac:(rewrite Nat2Z.id; exact Hi) Hg Hn ltac:(lia)) as [p [r [E1 [E2 C]]]].
    exists r. rewrite E1. cbn [bind]. rewrite E2. split; [reflexivity|exact C].
  - intros x Hx. destruct (integer_of x) as [z|e] eqn:E.
    + apply integer_of_some in E. contradiction (Hx z E).
    + cbn [bind]. unfold integer_of in E. destruct (Pos.eqb _ _); [discriminate E|]. congruence.
Qed.
Print Assumptions C55_truth_counts.

Example C55_truth_counts_example : forall T, exists d g log,
  is_data_set_of [log] d /\ mk_ground_truth d 0 = Ok g /\ log = [(7, 1%Q); (7, 2%Q); (9, 3%Q)] /\
  c_reach (surface_curve T (GroundTruth g)) (6 # 3) = Ok 1%Q /\ c_reach (surface_curve T (GroundTruth g)) 3 = Ok 2%Q /\
  c_reach (surface_curve T (GroundTruth g)) (5 # 2) = Err TypeError.
Proof.
  intros T. eexists. eexists. eexists. split; [|split; [|split; [reflexivity|]]].
  - eexists; exists (Some "d"%string), None. split; [repeat constructor; exists "r"%string, (Some "p"%string); reflexivity|reflexivity].
  - vm_compute. reflexivity.
  - split; [|split]; vm_compute; reflexivity.
Qed.

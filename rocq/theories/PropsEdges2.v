(** C41, boundary cases: no test points, and a true reach of zero. *)
From Coq Require Import String Lqa.
From Verif Require Import Prelude ModelReachPoint ModelAggregator SpecSurface SpecAggregator
  ReachPointLemmas DataLemmas AggregatorLemmas AggregatorLemmas2 PropsAggregator.
Open Scope Z_scope.

(** Without test points there is no row: numpy's quantile raises IndexError. *)
Theorem C41_no_points : forall I, aggregate (I := I) [] [] = Err IndexError.
Proof. intros I. reflexivity. Qed.
Print Assumptions C41_no_points.

Lemma finite_none l : In NotFinite l -> finite l = None.
Proof.
  induction l as [|a l IH]; intros H; [destruct H|]. cbn [finite]. destruct H as [->|H]; [reflexivity|].
  destruct a; [|reflexivity]. rewrite (IH H). reflexivity.
Qed.

(** If a true reach is zero, every relative metric is missing and the absolute ones are still
    numbers. *)
Theorem C41_zero_truth {I} (x y : list (reach_point I Q)) n t :
  comparable x y -> length x = n -> reaches x 1 t -> (exists i, (i < n)%nat /\ (t i == 0)%Q) ->
  exists row, aggregate x y = Ok row /\
    (forall key, In key ["mean_abs_relative_error"; "mean_squared_relative_error"; "var_relative_error";
       "relative_error_q10"; "relative_error_q20"; "relative_error_q30"; "relative_error_q40";
       "relative_error_q50"; "relative_error_q60"; "relative_error_q70"; "relative_error_q80";
       "relative_error_q90"]%string -> missing row key) /\
    (forall key, In key ["mean_error"; "mean_abs_error"; "mean_squared_error"; "var_error"]%string ->
       exists q, number row key q).
Proof.
  intros Hc Hn Ht [i [Hi Hz]]. destruct (comparable_row x y Hc) as [Er [Ne Lc]].
  exists (row_of (combine x y)). split; [exact Er|].
  assert (El : length x = length y) by apply Hc.
  set (pairs := combine x y) in *.
  assert (exists p, In p pairs /\ (rk 1 (fst p) == 0)%Q) as [p [Hp Hr]].
  { destruct (nth_error x i) as [a|] eqn:Ea; [|apply nth_error_None in Ea; lia].
    destruct (nth_error y i) as [b|] eqn:Eb; [|apply nth_error_None in Eb; lia].
    exists (a, b). split.
    - assert (nth_error (combine x y) i = Some (a, b)) as E.
      { clear - Ea Eb. revert y i Ea Eb. induction x as [|u x IH]; intros [|v y] i Ea Eb; try (destruct i; discriminate).
        destruct i; cbn in *; [congruence|]. apply IH; assumption. }
      exact (nth_error_In _ _ E).
    - cbn [fst]. pose proof (Ht i a Ea) as E.
      assert (1 <= max_frequency a) as Ma by (apply Hc; left; eapply nth_error_In; exact Ea).
      rewrite (reach_rk a 1 ltac:(lia) Ma) in E. injection E as ->. exact Hz. }
  assert (D : forall v, np_div v (rk 1 (fst p)) = NotFinite).
  { intros v. unfold np_div. assert (Qeqb (rk 1 (fst p)) 0 = true) as ->; [|reflexivity].
    unfold Qeqb. apply Qeq_bool_iff. exact Hr. }
  assert (D2 : forall v, np_div v (square (rk 1 (fst p))) = NotFinite).
  { intros v. unfold np_div. assert (Qeqb (square (rk 1 (fst p))) 0 = true) as ->; [|reflexivity].
    unfold Qeqb. apply Qeq_bool_iff. unfold square. rewrite Hr. reflexivity. }
  assert (N1 : np_mean (map (fun p => np_div (square (err 1 p)) (square (rk 1 (fst p)))) pairs) = NotFinite).
  { unfold np_mean. rewrite finite_none; [reflexivity|]. apply in_map_iff. exists p. split; [apply D2|exact Hp]. }
  assert (N2 : np_var (map (fun p => np_div (err 1 p) (rk 1 (fst p))) pairs) = NotFinite).
  { unfold np_var. rewrite finite_none; [reflexivity|]. apply in_map_iff. exists p. split; [apply D|exact Hp]. }
  assert (N3 : forall q, qstat (map (rel 1) pairs) q = NotFinite).
  { intros q. unfold qstat. rewrite finite_none; [reflexivity|]. apply in_map_iff. exists p. split; [apply D|exact Hp]. }
  split.
  - destruct (C41_relative_errors x y 1 "mean_abs_relative_error" Hc ltac:(left; reflexivity)) as [row [Er' [_ H]]].
    rewrite Er in Er'. injection Er' as <-. intros key [<-|K].
    + destruct Hc as [_ [_ Hp']].
      destruct (H n t (fun j => match nth_error y j with Some q => rk 1 q | None => 0%Q end) Hn Ht) as [M _].
      * intros j q E. rewrite E. apply reach_rk; [lia|]. apply Hp'. right. eapply nth_error_In; exact E.
      * intros q Hq. apply Hp'. exact Hq.
      * apply M. exists i. split; [exact Hi|exact Hz].
    + unfold missing. repeat (destruct K as [<-|K]; [cbn [row_of column String.eqb Ascii.eqb Bool.eqb];
        first [rewrite N1|rewrite N2|rewrite N3]; reflexivity|]). destruct K.
  - intros key K.
    assert (F : forall (f : list Q -> Q) g, exists q, (match finite (map Num (map g pairs)) with
               | None | Some [] => NotFinite | Some qs => Num (f qs) end) = Num q).
    { intros f g. assert (forall l, finite (map Num l) = Some l) as Fl.
      { induction l as [|a l IH]; [reflexivity|]. cbn [map finite]. rewrite IH. reflexivity. }
      rewrite Fl. destruct pairs as [|a l]; [congruence|]. cbn [map]. eexists. reflexivity. }
    assert (G : forall g, exists q, np_mean (map Num (map g pairs)) = Num q) by (intros g; apply (F mean_of)).
    assert (G2 : forall g, exists q, np_var (map Num (map g pairs)) = Num q) by (intros g; apply (F variance_of)).
    destruct K as [<-|[<-|[<-|[<-|[]]]]]; unfold number; cbn [row_of column String.eqb Ascii.eqb Bool.eqb].
    + destruct (G (err 1)) as [q ->]. exists q, q. split; reflexivity.
    + rewrite (map_map (err 1) Qabs' pairs). destruct (G (fun p => Qabs' (err 1 p))) as [q ->]. exists q, q. split; reflexivity.
    + rewrite (map_map (err 1) square pairs). destruct (G (fun p => square (err 1 p))) as [q ->]. exists q, q. split; reflexivity.
    + destruct (G2 (err 1)) as [q ->]. exists q, q. split; reflexivity.
Qed.
Print Assumptions C41_zero_truth.

(** A true reach of 0 beside one of 4. *)
Example ex_zero_truth : exists (a b : reach_point Z Q) row,
  mk_reach_point Qops [5] [0%Q] None None = Ok a /\ mk_reach_point Qops [5] [4%Q] None None = Ok b /\
  comparable [a; b] [b; b] /\ aggregate [a; b] [b; b] = Ok row /\
  missing row "var_relative_error" /\ number row "mean_error" (-2).
Proof.
  do 3 eexists. split; [reflexivity|]. split; [reflexivity|]. split.
  - split; [reflexivity|]. split; [discriminate|].
    intros p [[<-|[<-|[]]]|[<-|[<-|[]]]]; (split; [exists [5]; eexists; exists None, None; reflexivity|cbn; lia]).
  - split; [vm_compute; reflexivity|]. split; [reflexivity|]. eexists. split; reflexivity.
Qed.

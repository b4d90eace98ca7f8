(** C18, C19: privacy accounting. *)
From Coq Require Import String Lqa Permutation.
From Verif Require Import Prelude ModelPrivacy SpecPrivacy PrivacyLemmas.
Open Scope Z_scope.

(** ** C18 *)

Theorem C18_consumption_is_worst_bucket : forall es,
  Forall valid_event es ->
  let c := privacy_consumption (tracker_of es) in
  (forall x v, (0 <= x < 1)%Q -> total_at epsilon x es v -> (v <= epsilon c)%Q) /\
  (exists x v, (0 <= x < 1)%Q /\ total_at epsilon x es v /\ (v == epsilon c)%Q) /\
  (forall x v, (0 <= x < 1)%Q -> total_at delta x es v -> (v <= delta c)%Q) /\
  (exists x v, (0 <= x < 1)%Q /\ total_at delta x es v /\ (v == delta c)%Q).
Proof.
  intros es Hv c.
  assert (forall sel, is_sel sel ->
    (forall x v, (0 <= x < 1)%Q -> total_at sel x es v -> (v <= sel c)%Q) /\
    (exists x v, (0 <= x < 1)%Q /\ total_at sel x es v /\ (v == sel c)%Q)) as H.
  { intros sel Hs. split.
    - intros x v Hx H. rewrite (total_at_fn_spec sel x es v Hv Hx H).
      apply consumption_bound; auto.
    - destruct (consumption_attained sel es Hs Hv) as [x [Hx E]].
      destruct (total_at_exists sel x es Hv Hx) as [v H].
      exists x, v. split; auto. split; auto.
      rewrite (total_at_fn_spec sel x es v Hv Hx H). symmetry. exact E. }
  destruct (H epsilon (or_introl eq_refl)), (H delta (or_intror eq_refl)). auto.
Qed.
Print Assumptions C18_consumption_is_worst_bucket.

(** The budget reported for one bucket is the total over the events covering it. *)
Theorem C18_bucket_consumption : forall es x v w,
  Forall valid_event es -> (0 <= x < 1)%Q ->
  total_at epsilon x es v -> total_at delta x es w ->
  (epsilon (consumption_at (tracker_of es) x) == v /\
   delta (consumption_at (tracker_of es) x) == w)%Q.
Proof.
  intros es x v w Hv Hx H1 H2.
  rewrite (total_at_fn_spec epsilon x es v Hv Hx H1), (total_at_fn_spec delta x es w Hv Hx H2).
  rewrite (consumption_at_sel epsilon), (consumption_at_sel delta), tracker_of_events
    by (unfold is_sel; auto). split; reflexivity.
Qed.
Print Assumptions C18_bucket_consumption.

Definition ex_event (e d s r : Q) : noising_event :=
  {| ev_budget := {| epsilon := e; delta := d |}; ev_mechanism := "Laplace"%string;
     ev_buckets := {| smallest_index := s; sampling_rate := r |} |}.
(** The second range wraps around 1. *)
Definition ex_events : list noising_event :=
  [ex_event 1 (1#10) 0 (1#2); ex_event 2 (2#10) (3#4) (1#2); ex_event 4 0 (1#4) (1#4)]%Q.
Example C18_example : Forall valid_event ex_events /\
  (epsilon (privacy_consumption (tracker_of ex_events)) == 5)%Q /\
  (delta (privacy_consumption (tracker_of ex_events)) == (3#10))%Q.
Proof.
  split; [|split; reflexivity].
  repeat constructor; simpl; unfold Qle, Qlt; simpl; lia.
Qed.

(** ** C19 *)

Theorem C19_appending_never_lowers : forall es es',
  Forall valid_event es -> Forall valid_event es' ->
  (epsilon (privacy_consumption (tracker_of es)) <= epsilon (privacy_consumption (tracker_of (es ++ es'))) /\
   delta (privacy_consumption (tracker_of es)) <= delta (privacy_consumption (tracker_of (es ++ es'))))%Q.
Proof.
  intros es es' Hv Hv'.
  assert (forall sel, is_sel sel -> (sel (privacy_consumption (tracker_of es)) <=
    sel (privacy_consumption (tracker_of (es ++ es'))))%Q) as H.
  { intros sel Hs. destruct (consumption_attained sel es Hs Hv) as [x [Hx ->]].
    pose proof (consumption_bound sel (es ++ es') x Hs ltac:(apply Forall_app; auto) Hx) as H.
    rewrite total_at_fn_app in H. pose proof (total_at_fn_nonneg sel x es' Hs Hv'). lra. }
  split; apply H; unfold is_sel; auto.
Qed.
Print Assumptions C19_appending_never_lowers.

Theorem C19_subadditive : forall es es',
  Forall valid_event es -> Forall valid_event es' ->
  (epsilon (privacy_consumption (tracker_of (es ++ es'))) <=
   epsilon (privacy_consumption (tracker_of es)) + epsilon (privacy_consumption (tracker_of es')) /\
   delta (privacy_consumption (tracker_of (es ++ es'))) <=
   delta (privacy_consumption (tracker_of es)) + delta (privacy_consumption (tracker_of es')))%Q.
Proof.
  intros es es' Hv Hv'.
  assert (forall sel, is_sel sel -> (sel (privacy_consumption (tracker_of (es ++ es'))) <=
    sel (privacy_consumption (tracker_of es)) + sel (privacy_consumption (tracker_of es')))%Q) as H.
  { intros sel Hs.
    destruct (consumption_attained sel (es ++ es') Hs ltac:(apply Forall_app; auto)) as [x [Hx ->]].
    rewrite total_at_fn_app.
    pose proof (consumption_bound sel es x Hs Hv Hx).
    pose proof (consumption_bound sel es' x Hs Hv' Hx). lra. }
  split; apply H; unfold is_sel; auto.
Qed.
Print Assumptions C19_subadditive.

(** With full bucket ranges consumption is exactly additive, whatever was recorded before. *)
Theorem C19_additive_full_range : forall es es',
  Forall valid_event es -> Forall valid_event es' -> Forall full_range es' ->
  (epsilon (privacy_consumption (tracker_of (es ++ es'))) ==
   epsilon (privacy_consumption (tracker_of es)) + Qsum (map (fun e => epsilon (ev_budget e)) es') /\
   delta (privacy_consumption (tracker_of (es ++ es'))) ==
   delta (privacy_consumption (tracker_of es)) + Qsum (map (fun e => delta (ev_budget e)) es'))%Q.
Proof.
  intros es es' Hv Hv' Hf.
  assert (forall sel l, total_sel sel l = Qsum (map (fun e => sel (ev_budget e)) l)) as E
    by (intros sel; induction l; simpl; congruence).
  rewrite <- !E. split; apply consumption_add_full; unfold is_sel; auto.
Qed.
Print Assumptions C19_additive_full_range.

Theorem C19_order_irrelevant : forall es es',
  Forall valid_event es -> Permutation es es' ->
  (epsilon (privacy_consumption (tracker_of es)) == epsilon (privacy_consumption (tracker_of es')) /\
   delta (privacy_consumption (tracker_of es)) == delta (privacy_consumption (tracker_of es')))%Q.
Proof.
  intros es es' Hv HP.
  assert (Forall valid_event es') as Hv'.
  { rewrite Forall_forall in *. intros e He. apply Hv. eapply Permutation_in; [|exact He].
    apply Permutation_sym; auto. }
  assert (forall sel a b, is_sel sel -> Forall valid_event a -> Forall valid_event b -> Permutation a b ->
    (sel (privacy_consumption (tracker_of a)) <= sel (privacy_consumption (tracker_of b)))%Q) as H.
  { intros sel a b Hs Ha Hb Hab. destruct (consumption_attained sel a Hs Ha) as [x [Hx ->]].
    rewrite (total_at_fn_perm sel x a b Hab). apply consumption_bound; auto. }
  pose proof (Permutation_sym HP).
  split; apply Qle_antisym; apply H; unfold is_sel; auto.
Qed.
Print Assumptions C19_order_irrelevant.

(** A bucket covered by none of the new events keeps its consumption, so events on disjoint
    ranges compose in parallel: the total is the larger one, not the sum. *)
Theorem C19_disjoint_ranges_compose_in_parallel : forall es es',
  Forall valid_event es -> Forall valid_event es' ->
  (forall x e e', (0 <= x < 1)%Q -> In e es -> In e' es' ->
     ~ (in_range (ev_buckets e) x /\ in_range (ev_buckets e') x)) ->
  let c := privacy_consumption (tracker_of es) in
  let c' := privacy_consumption (tracker_of es') in
  let c'' := privacy_consumption (tracker_of (es ++ es')) in
  ((epsilon c'' == epsilon c \/ epsilon c'' == epsilon c') /\
   (delta c'' == delta c \/ delta c'' == delta c'))%Q.
Proof.
  intros es es' Hv Hv' Hd c c' c''.
  assert (forall sel, is_sel sel -> (sel c'' == sel c \/ sel c'' == sel c')%Q) as H.
  { intros sel Hs. assert (Forall valid_event (es ++ es')) as Hva by (apply Forall_app; auto).
    destruct (consumption_attained sel (es ++ es') Hs Hva) as [x [Hx E]].
    rewrite total_at_fn_app in E.
    assert (forall l, Forall valid_event l -> (forall e, In e l -> ~ in_range (ev_buckets e) x) ->
      (total_at_fn sel x l == 0)%Q) as Hz.
    { clear -Hx. induction l as [|e l IH]; intros Hl Hn; simpl; [reflexivity|].
      inversion Hl; subst. destruct (contains (ev_buckets e) x) eqn:Ec.
      - apply contains_spec in Ec; auto; [|destruct H1 as [? [? [? [? [? ?]]]]]; auto ..].
        exfalso. eapply Hn; [left; reflexivity|auto].
      - rewrite IH; [lra|auto|intros; apply Hn; right; auto]. }
    assert ((exists e, In e es /\ contains (ev_buckets e) x = true) \/
            forall e, In e es -> contains (ev_buckets e) x = false) as [[e [He Hc]]|Hno].
    { destruct (existsb (fun e => contains (ev_buckets e) x) es) eqn:Ex.
      - left. apply existsb_exists in Ex. exact Ex.
      - right. intros e He. rewrite <- not_true_iff_false in *. intros C. apply Ex.
        apply existsb_exists. eauto. }
    - left. rewrite (Hz es' Hv') in E.
      + apply Qle_antisym.
        * pose proof (consumption_bound sel es x Hs Hv Hx). unfold c, c''. lra.
        * unfold c, c''. destruct (consumption_attained sel es Hs Hv) as [y [Hy ->]].
          pose proof (consumption_bound sel (es ++ es') y Hs Hva Hy) as B.
          rewrite total_at_fn_app in B. pose proof (total_at_fn_nonneg sel y es' Hs Hv'). lra.
      + intros e' He' Hin. apply (Hd x e e' Hx He He'). split; auto.
        rewrite Forall_forall in Hv. destruct (Hv e He) as [? [? [? [? [? ?]]]]].
        apply contains_spec; auto.
    - right. rewrite (Hz es Hv) in E.
      + apply Qle_antisym.
        * pose proof (consumption_bound sel es' x Hs Hv' Hx). unfold c', c''. lra.
        * unfold c', c''. destruct (consumption_attained sel es' Hs Hv') as [y [Hy ->]].
          pose proof (consumption_bound sel (es ++ es') y Hs Hva Hy) as B.
          rewrite total_at_fn_app in B. pose proof (total_at_fn_nonneg sel y es Hs Hv). lra.
      + intros e He Hin. rewrite Forall_forall in Hv. destruct (Hv e He) as [? [? [? [? [? ?]]]]].
        apply contains_spec in Hin; auto. rewrite Hno in Hin by auto. discriminate. }
  split; apply H; unfold is_sel; auto.
Qed.
Print Assumptions C19_disjoint_ranges_compose_in_parallel.

Example C19_example :
  (epsilon (privacy_consumption (tracker_of (ex_events ++ [ex_event 7 (1#2) 0 1]))) == 12)%Q /\
  full_range (ex_event 7 (1#2) 0 1)%Q /\
  (epsilon (privacy_consumption (tracker_of [ex_event 3 0 0 (1#2); ex_event 2 0 (1#2) (1#2)]%Q)) == 3)%Q.
Proof. repeat split. Qed.

(** Lists of trials: programs end. *)
From Coq Require Import String Ascii.
From Verif Require Import Prelude ModelReachPoint ModelAggregator ModelFiles ModelDriver SpecDriver ModelTogether SpecTogether
  TogetherLemmas3 ModelTogether2.
Open Scope nat_scope.

Inductive lasts {A} (Post : A -> Prop) : nat -> prog A -> Prop :=
| la_ret n a : Post a -> lasts Post n (Ret a)
| la_look n q k : (forall x, lasts Post n (k x)) -> lasts Post (S n) (Look q k)
| la_act n e k : (forall x, lasts Post n (k x)) -> lasts Post (S n) (Act e k).
Lemma lasts_more {A} (Post : A -> Prop) n p : lasts Post n p -> forall m, n <= m -> lasts Post m p.
Proof.
  induction 1 as [n a H|n q k H IH|n e k H IH]; intros m Hm; [constructor; exact H| |]; (destruct m as [|m]; [lia|]); constructor; intros x; apply IH; lia.
Qed.
Lemma lasts_acts {A} (Post : A -> Prop) n (k : result unit -> prog A) es : (forall x, lasts Post n (k x)) -> lasts Post (length es + n) (acts es k).
Proof.
  intros H. induction es as [|e r IH]; cbn [length acts Nat.add]; [apply H|]. constructor. intros [u|y]; [exact IH|].
  apply (lasts_more Post n); [apply H|lia].
Qed.
Lemma within_pbind {A B} (Post : A -> Prop) n m (f : A -> prog B) p : lasts Post n p -> (forall a, Post a -> within_steps m (f a)) -> within_steps (n + m) (pbind p f).
Proof.
  intros H F. induction H as [n a H|n q k H IH|n e k H IH]; cbn [pbind Nat.add].
  - apply (within_more m); [exact (F a H)|lia].
  - constructor. exact IH.
  - constructor. exact IH.
Qed.

Section Ends.
Variables (L : lab) (seed : Z).
Lemma evaluate_lasts t now g : exists n, lasts (fun a => snd a = g \/ snd a = snd (compute_row L t seed g)) n (evaluate L t seed now g).
Proof.
  set (Post := fun a : result table * generators L => snd a = g \/ snd a = snd (compute_row L t seed g)).
  assert (R : exists n, lasts Post n (recompute L t seed now g)).
  { unfold recompute. unfold Post. destruct (compute_row L t seed g) as [[row|e] g'] eqn:E; cbn [snd].
    - eexists. eapply lasts_acts. intros [u|e]; [|constructor; left; reflexivity]. apply lasts_acts.
      intros [u'|e']; apply (la_ret _ 0); right; reflexivity.
    - exists (length (save (pending_path L t) (pending_text L t now)) + 0). apply lasts_acts. intros [u|e']; constructor; [right|left]; reflexivity. }
  destruct R as [n R]. exists (3 + n). unfold evaluate. constructor.
  intros [[|c]|]; [apply (lasts_more _ n); [exact R|lia]| |apply (lasts_more _ n); [exact R|lia]].
  constructor. intros x. destruct (match x with Some (File c) => lab_parse L c | Some Dir => Err OtherError | None => Err FileNotFoundError end); [constructor; left; reflexivity|].
  constructor. intros [u|y]; [exact R|constructor; left; reflexivity].
Qed.
Lemma within_pbind_all {A B} m n (f : A -> prog B) p : within_steps n p -> (forall a, within_steps m (f a)) -> within_steps (n + m) (pbind p f).
Proof.
  intros H F. induction H as [n a|n q k H IH|n e k H IH]; cbn [pbind Nat.add].
  - apply (within_more m); [apply F|lia].
  - constructor. exact IH.
  - constructor. exact IH.
Qed.
Lemma evaluate_all_ends l : forall nows g, exists n, within_steps n (evaluate_all L l seed nows g).
Proof.
  induction l as [|t l IH]; intros nows g; cbn [evaluate_all]; [exists 0; constructor|].
  destruct (evaluate_lasts t (nows O) g) as [n H].
  destruct (IH (fun n => nows (S n)) g) as [m1 M1]. destruct (IH (fun n => nows (S n)) (snd (compute_row L t seed g))) as [m2 M2].
  exists (n + (m1 + m2 + 0)). eapply within_pbind; [exact H|]. intros [[tb|e] g'] Hg; cbn [fst snd] in *; [|constructor].
  apply within_pbind_all; [destruct Hg as [-> | ->]; [apply (within_more m1)|apply (within_more m2)]; auto; lia|].
  intros [[tbs|e] g2]; constructor.
Qed.
Lemma sessions_end (es : list (session L)) : exists n, forall schedule s s' ps,
  shared_run schedule s (session_starts seed es) = (s', ps) -> (forall i, i < length es -> n <= turns i schedule) -> all_ended ps.
Proof.
  assert (H : exists n, forall e, In e es -> within_steps n (evaluate_all L (se_trials e) seed (se_nows e) (se_generators e))).
  { induction es as [|e l [n IH]]; [exists 0; intros e []|]. destruct (evaluate_all_ends (se_trials e) (se_nows e) (se_generators e)) as [m M].
    exists (n + m). intros e' [<-|H]; [apply (within_more m); [exact M|lia]|]. apply (within_more n); [exact (IH _ H)|lia]. }
  destruct H as [n H]. exists n. intros schedule s s' ps E T i x Hx.
  assert (Hi : i < length es).
  { pose proof (run_length _ _ _ _ _ E) as Y. unfold session_starts in Y. rewrite map_length in Y. rewrite <- Y. apply nth_error_Some. congruence. }
  destruct (nth_error es i) as [e|] eqn:He; [|apply nth_error_None in He; lia].
  assert (Hs : nth_error (session_starts seed es) i = Some (None, evaluate_all L (se_trials e) seed (se_nows e) (se_generators e))).
  { unfold session_starts. rewrite nth_error_map, He. reflexivity. }
  destruct (run_within _ _ _ _ _ _ _ _ n E Hs (H e (nth_error_In _ _ He))) as [h' [p' [A W]]].
  assert (X : x = (h', p')) by congruence. subst x. cbn [snd]. specialize (T i Hi). replace (n - turns i schedule) with 0 in W by lia.
  inversion W. eexists. reflexivity.
Qed.
End Ends.

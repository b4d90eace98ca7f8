(** From the parameters of data sets to the table: the disk after the data design has been made. *)
From Coq Require Import String Ascii Permutation Sorted.
From Verif Require Import Prelude ModelReachPoint ModelData DataLemmas ModelHalo ModelAggregator SpecAggregator ModelFiles SpecFiles
  FilesLemmas FilesLemmas2 FilesLemmas3 ModelDriver SpecDriver DriverLemmas DriverLemmas2 DriverLemmas3
  DriverLemmas4 DriverLemmas5 DriverLemmas6 DriverLemmas7 DriverLemmas8 ModelExecute SpecExecute ExecuteLemmas ExecuteLemmas2 ExecuteLemmas3 ExecuteLemmas4.
From Verif Require Import SpecTrial TrialLemmas ModelDesigns SpecDesigns ModelExperiments SpecExperiments ExperimentsLemmas ExperimentsLemmas2 ExperimentsLemmas4
  ExperimentsLemmas5 ExperimentsLemmas6.
From Verif Require Import SpecPipeline PipelineLemmas.
From Verif Require PropsExperiments PropsTrial PropsDriver3.
Open Scope Z_scope.

(** ** Paths *)

Lemma within_trans a b c : within a b -> within b c -> within a c.
Proof. intros [r ->] [s ->]. exists (r ++ s). cbn [fst snd]. rewrite app_assoc. reflexivity. Qed.
Lemma within_refl a : within a a.
Proof. exists []. rewrite app_nil_r. destruct a; reflexivity. Qed.
Lemma within_entry a n : within a (entry a n).
Proof. exists [n]. reflexivity. Qed.

Lemma prefix_dec (a b : list string) : {exists r, b = a ++ r} + {~ exists r, b = a ++ r}.
Proof.
  destruct (list_eq_dec string_dec (firstn (length a) b) a) as [E|N].
  - left. exists (skipn (length a) b). rewrite <- E at 1. symmetry. apply firstn_skipn.
  - right. intros [r ->]. apply N. rewrite firstn_app, firstn_all, Nat.sub_diag. cbn. apply app_nil_r.
Qed.
Lemma within_dec a b : within a b \/ ~ within a b.
Proof.
  assert (D : fst b = fst a \/ fst b <> fst a).
  { destruct (path_dec (fst b, []) (fst a, [])) as [X|X]; [left; congruence|right; congruence]. }
  destruct D as [E|N].
  - destruct (prefix_dec (snd a) (snd b)) as [[r X]|X].
    + left. exists r. destruct b; cbn [fst snd] in *. congruence.
    + right. intros [r Y]. apply X. exists r. rewrite Y. reflexivity.
  - right. intros [r Y]. apply N. rewrite Y. reflexivity.
Qed.

Lemma prefixes_meet (a : list string) : forall b r s, a ++ r = b ++ s -> (exists x, b = a ++ x) \/ (exists x, a = b ++ x).
Proof.
  induction a as [|x a IH]; intros b r s E; [left; exists b; reflexivity|].
  destruct b as [|y b]; [right; exists (x :: a); reflexivity|]. cbn [app] in E.
  assert (x = y) by congruence. subst y. destruct (IH b r s ltac:(congruence)) as [[z ->]|[z ->]]; [left|right]; exists z; reflexivity.
Qed.
Lemma within_linear a b q : within a q -> within b q -> within a b \/ within b a.
Proof.
  intros [r ->] [s E]. cbn [fst snd] in *. assert (F : fst a = fst b) by congruence.
  destruct (prefixes_meet (snd a) (snd b) r s ltac:(congruence)) as [[x X]|[x X]]; [left|right]; exists x;
    destruct a, b; cbn [fst snd] in *; congruence.
Qed.

Lemma on_the_way_entry w n q : on_the_way (entry w n) q -> q = entry w n \/ on_the_way w q.
Proof.
  intros [N [r E]]. destruct r as [|x r] using rev_ind.
  - left. rewrite app_nil_r in E. rewrite E. destruct q; reflexivity.
  - right. split; [exact N|]. clear IHr. exists r. unfold entry in E. destruct w as [a l], q as [b m]. cbn [fst snd] in *.
    assert (Ea : a = b) by congruence. assert (El : l ++ [n] = (m ++ r) ++ [x]) by (rewrite <- app_assoc; congruence).
    apply app_inj_tail in El. destruct El as [-> _]. congruence.
Qed.

Lemma ancestor_dir k r : forall q : path, disk_ok k -> stat k (fst q, snd q ++ r) = Some Dir -> stat k q = Some Dir.
Proof.
  induction r as [|x r IH] using rev_ind; intros q K D.
  - rewrite app_nil_r in D. destruct q; exact D.
  - apply IH; [exact K|]. pose proof (proj2 (proj2 K) (fst q, snd q ++ r ++ [x])) as P. rewrite D in P.
    assert (X : stat k (parent (fst q, snd q ++ r ++ [x])) = Some Dir) by (apply P; discriminate).
    unfold parent in X. cbn [fst snd] in X. rewrite app_assoc, removelast_last in X. exact X.
Qed.
Lemma way_dir k dir q : disk_ok k -> stat k dir = Some Dir -> within q dir -> stat k q = Some Dir.
Proof. intros K D [r ->]. eapply ancestor_dir; eassumption. Qed.

(** ** Trials in a new workspace *)

Section Space.
Variables (L : lab) (dr : driver L) (k k' : disk).
Notation data := (data_dir L dr).
Notation work := (work_dir L dr).
Notation marks := (marker_dir L dr).
Hypothesis K : disk_ok k.
Hypothesis K' : disk_ok k'.
Hypothesis D' : stat k' data = Some Dir.
Hypothesis Same : forall q, ~ within data q -> ~ on_the_way data q -> stat k' q = stat k q.
Hypothesis New : new_workspace L dr k.

Lemma below_same w q : disjoint data w -> within w q -> stat k' q = stat k q.
Proof.
  intros [A B] W. apply Same.
  - intros X. destruct (within_linear data w q X W); contradiction.
  - intros [_ X]. apply B. eapply within_trans; eassumption.
Qed.

Variable ts : list trial.
Hypothesis Here : forall t, In t ts -> exists n f m,
  out_of L t = entry (entry work n) f /\ pending_path L t = entry marks m.

Lemma parent_entry w n : parent (entry w n) = w.
Proof. unfold parent, entry. cbn [fst snd]. rewrite removelast_last. destruct w; reflexivity. Qed.

Lemma way_same w q : w = work \/ w = marks -> on_the_way w q -> forall c, stat k' q <> Some (File c).
Proof.
  intros Hw W c. destruct New as [_ [_ N]]. destruct (N w Hw) as [N1 [_ [N3 N4]]].
  destruct (on_the_way_dec data q) as [O|O].
  - rewrite (way_dir k' data q K' D' (proj2 O)). discriminate.
  - rewrite Same; [apply N1; exact W| |exact O]. intros X. apply N3. eapply within_trans; [exact X|exact (proj2 W)].
Qed.

Lemma new_usable : usable L ts k' /\ forall t, In t ts -> stat k' (out_of L t) = None.
Proof.
  destruct New as [_ [_ N]].
  destruct (N work (or_introl eq_refl)) as [N1 [N2 N3]]. destruct (N marks (or_intror eq_refl)) as [M1 [M2 M3]].
  assert (O : forall t, In t ts -> stat k' (out_of L t) = None).
  { intros t Ht. destruct (Here t Ht) as [n [f [m [E _]]]]. rewrite E.
    rewrite (below_same work) by (try exact N3; eapply within_trans; apply within_entry).
    destruct (stat k (entry (entry work n) f)) eqn:S; [|reflexivity]. exfalso.
    pose proof (proj2 (proj2 K) (entry (entry work n) f)) as P. rewrite S, parent_entry, N2 in P.
    assert (X : None = Some Dir) by (apply P; discriminate). discriminate X. }
  split; [|exact O]. split; [exact K'|]. intros t Ht. split; [|split; [rewrite (O t Ht); discriminate|]].
  - destruct (Here t Ht) as [n [f [m [E1 E2]]]]. intros q c. unfold directory_of. rewrite E1, E2, !parent_entry. intros [W|W].
    + destruct (on_the_way_entry work n q W) as [->|W']; [|apply (way_same work); auto].
      rewrite (below_same work) by (try exact N3; apply within_entry). rewrite N2. discriminate.
    + apply (way_same marks); auto.
  - destruct (Here t Ht) as [n [f [m [E1 E2]]]]. rewrite E2.
    rewrite (below_same marks) by (try exact M3; apply within_entry). rewrite M2. discriminate.
Qed.

Lemma free_place_for x : free_place L dr k x -> place_for L dr ts k' x.
Proof.
  intros [F1 [F2 [F3 F4]]].
  destruct (F4 data (or_introl eq_refl)) as [D1 D2]. destruct (F4 work (or_intror (or_introl eq_refl))) as [W1 W2].
  destruct (F4 marks (or_intror (or_intror eq_refl))) as [M1 M2].
  split; [exact F1|]. split; [exact D2|]. split.
  { rewrite Same; [exact F2|exact D2|]. intros [_ X]. contradiction. }
  split.
  - intros t Ht. destruct (Here t Ht) as [n [f [m [E1 E2]]]]. unfold directory_of. rewrite E1, E2, !parent_entry.
    split; [intros ->; apply W2; eapply within_trans; apply within_entry|].
    split; [intros ->; apply M2; apply within_entry|]. intros [W|[_ W]]; [|contradiction].
    destruct (on_the_way_entry work n x W) as [->|[_ W']]; [apply W2, within_entry|contradiction].
  - left. destruct (on_the_way_dec data (parent x)) as [O|O].
    + exact (way_dir k' data _ K' D' (proj2 O)).
    + rewrite Same; [exact F3| |exact O]. intros X. apply D2. eapply within_trans; [exact X|].
      rewrite (entry_of_parent x F1) at 2. apply within_entry.
Qed.
End Space.

(** Programs on cloud storage that do the same; preparing a run again. *)
From Coq Require Import String Ascii Permutation Sorted.
From Verif Require Import Prelude ModelReachPoint ModelData ModelAggregator ModelFiles SpecData SpecFiles
  DataLemmas FilesLemmas FilesLemmas2 FilesLemmas3 ModelHalo ModelDriver SpecDriver DriverLemmas DriverLemmas4 DriverLemmas8
  ModelExecute SpecExecute ExecuteLemmas
  ModelCloud SpecCloud CloudLemmas CloudLemmas2 CloudLemmas3 CloudLemmas4 ModelCloudRun SpecCloudRun.
Open Scope Z_scope.

(** ** Programs that do the same *)

Inductive csame {A} : cprog A -> cprog A -> Prop :=
| csame_ret : forall a, csame (CRet a) (CRet a)
| csame_look : forall q k k', (forall n, csame (k n) (k' n)) -> csame (CLook q k) (CLook q k')
| csame_act : forall e k k', csame k k' -> csame (CAct e k) (CAct e k').
Lemma csame_refl {A} (p : cprog A) : csame p p.
Proof. induction p; constructor; auto. Qed.
Lemma csame_bind {A B} (p p' : cprog A) (f f' : A -> cprog B) : csame p p' -> (forall a, csame (f a) (f' a)) ->
  csame (cbind p f) (cbind p' f').
Proof. intros H Hf. induction H; cbn [cbind]; [apply Hf| |]; constructor; auto. Qed.
Lemma csame_finish {A} (p p' : cprog A) : csame p p' -> forall o, cloud_finish p' o = cloud_finish p o.
Proof. intros H. induction H as [a|q k k' H IH|e k k' H IH]; intros o; cbn [cloud_finish]; auto. Qed.
Lemma csame_steps {A} n : forall (p p' : cprog A) o, csame p p' -> fst (cloud_steps n o p') = fst (cloud_steps n o p).
Proof.
  induction n as [|n IH]; intros p p' o H; [reflexivity|]. cbn [cloud_steps].
  destruct H as [a|q k k' H|e k k' H]; cbn [cloud_advance]; auto using csame_refl.
Qed.

Section Alike.
Variable L : lab.

Lemma alike_cloud_pending t t' : alike t t' -> cloud_pending L t' = cloud_pending L t.
Proof. intros A. unfold cloud_pending. rewrite (alike_out L t t' A), (proj1 A). reflexivity. Qed.
Lemma alike_cloud t t' seed now g : alike t t' -> cloud_evaluate L t' seed now g = cloud_evaluate L t seed now g.
Proof.
  intros A. unfold cloud_evaluate, cloud_recompute.
  rewrite (alike_out L t t' A), (alike_cloud_pending t t' A), (alike_text L t t' now A), (alike_row L t t' seed g A). reflexivity.
Qed.
Lemma alike_cloud_all ts ts' seed : Forall2 alike ts ts' -> forall nows g,
  csame (cloud_evaluate_all L ts seed nows g) (cloud_evaluate_all L ts' seed nows g).
Proof.
  intros H. induction H as [|t t' ts ts' A H IH]; intros nows g; [constructor|].
  cbn [cloud_evaluate_all]. rewrite (alike_cloud t t' seed (nows O) g A). apply csame_bind; [apply csame_refl|].
  intros a. destruct (fst a); [|constructor]. apply csame_bind; [apply IH|]. intros b. apply csame_refl.
Qed.
Lemma alike_cloud_in_order dr ts ts' nows g : Forall2 alike ts ts' ->
  csame (cloud_in_order L dr ts nows g) (cloud_in_order L dr ts' nows g).
Proof. intros H. apply csame_bind; [apply alike_cloud_all; exact H|]. intros a. apply csame_refl. Qed.

Lemma alike_nth ts ts' : Forall2 alike ts ts' -> forall i,
  match nth_error ts i, nth_error ts' i with Some t, Some t' => alike t t' | None, None => True | _, _ => False end.
Proof. intros H. induction H as [|t t' ts ts' Al H IH]; intros [|i]; cbn [nth_error]; [exact I|exact I|assumption|apply IH]. Qed.
Lemma alike_attempts ts ts' seed nows g attempts : Forall2 alike ts ts' ->
  attempt_programs L ts' seed nows g attempts = attempt_programs L ts seed nows g attempts.
Proof.
  intros H. unfold attempt_programs. apply map_ext. intros [k i]. cbn [fst snd]. pose proof (alike_nth ts ts' H i) as X.
  destruct (nth_error ts i), (nth_error ts' i); try contradiction; [|reflexivity]. apply alike_cloud. exact X.
Qed.

(** The rest of the run is the same. *)
Definition csame_rest (a b : option (result (cprog (result table))) * objects) : Prop :=
  snd b = snd a /\
  match fst a, fst b with
  | None, None => True
  | Some (Err e), Some (Err e') => e' = e
  | Some (Ok p), Some (Ok p') => csame p p'
  | _, _ => False
  end.
Lemma alike_cloud_begin dr ca c ts ts' g o : Forall2 alike ts ts' ->
  csame_rest (cloud_begin L dr ca c ts g o) (cloud_begin L dr ca c ts' g o).
Proof.
  intros H. unfold cloud_begin. rewrite <- (Forall2_len _ _ _ H). rewrite !(alike_attempts ts ts' _ _ g _ H).
  destruct (ca_beam ca); [|destruct (ca_cores ca =? 1)].
  - destruct (cloud_interleave _ _ _) as [o1 ps]. destruct (used_results _ _ _ _ _ _) as [[tbs|e]|]; cbn [bind]; [|split; reflexivity|split; reflexivity].
    destruct (combine_output (cc_combine c tbs)); cbn [bind]; split; cbn; auto using csame_refl.
  - split; [reflexivity|]. cbn [fst]. apply alike_cloud_in_order. exact H.
  - destruct (cloud_interleave _ _ _) as [o1 ps]. destruct (used_results _ _ _ _ _ _) as [[tbs|e]|]; cbn [bind]; [|split; reflexivity|split; reflexivity].
    split; [reflexivity|]. cbn [fst]. apply alike_cloud_in_order. exact H.
Qed.
End Alike.

(** ** Reading again *)

Lemma list_dir_filter dir o : forall given, list_dir dir given (filter (fun x => is_below dir (fst x)) o) = list_dir dir given o.
Proof.
  induction o as [|[q c] o IH]; intros given; [reflexivity|]. cbn [filter fst list_dir]. unfold is_below at 1.
  destruct (after_dir dir q) as [[|x [|y rest]]|] eqn:E; cbn [list_dir]; rewrite ?E; rewrite ?IH; try reflexivity.
Qed.
Lemma NoDup_fst_filter {A B} f (l : list (A * B)) : NoDup (map fst l) -> NoDup (map fst (filter f l)).
Proof.
  induction l as [|[a b] l IH]; intros N; [constructor|]. inversion N as [|? ? N1 N2]; subst. cbn [filter].
  destruct (f (a, b)); [|exact (IH N2)]. cbn [map fst]. constructor; [|exact (IH N2)]. intros I. apply N1.
  apply in_map_iff in I. destruct I as [[a' b'] [E I]]. cbn [fst] in E. subst a'. apply filter_In in I.
  apply in_map_iff. exists (a, b'). split; [reflexivity|apply I].
Qed.

Section Again.
Variables o o' : objects.
Variable dir : path.
Hypothesis Deep : (1 <= length (snd dir))%nat.
Hypothesis Ok1 : objects_ok o.
Hypothesis N2 : NoDup (map fst o').
Hypothesis Same : forall q, within dir q -> q <> dir -> obj_find o' q = obj_find o q.

Lemma entry_below n q : within (entry dir n) q -> within dir q /\ q <> dir.
Proof.
  intros [rest ->]. split.
  - exists (n :: rest). unfold entry. cbn [fst snd]. rewrite <- app_assoc. reflexivity.
  - intros E. apply (f_equal (fun z => length (snd z))) in E. unfold entry in E. cbn [snd] in E. rewrite !app_length in E. cbn [length] in E. lia.
Qed.
Lemma again_in q c : within dir q -> q <> dir -> (In (q, c) o' <-> In (q, c) o).
Proof. intros W D. rewrite <- !obj_find_in by (exact N2 || apply Ok1). rewrite Same by assumption. tauto. Qed.
Lemma again_stat n : cloud_stat o' (entry dir n) = cloud_stat o (entry dir n).
Proof.
  assert (D : (2 <= length (snd (entry dir n)))%nat) by (rewrite entry_length; lia).
  assert (W : within (entry dir n) (entry dir n)) by apply within_refl.
  rewrite !cloud_stat_deep by exact D. rewrite Same by (apply entry_below in W; apply W).
  destruct (obj_find o (entry dir n)); [reflexivity|].
  assert (existsb (fun x => is_below (entry dir n) (fst x)) o' = existsb (fun x => is_below (entry dir n) (fst x)) o) as ->; [|reflexivity].
  apply Bool.eq_iff_eq_true. rewrite !existsb_exists. split; intros [[q c] [I B]]; exists (q, c); (split; [|exact B]); cbn [fst] in B;
    apply is_below_spec in B; destruct B as [B _]; apply entry_below in B; destruct B as [B1 B2]; apply (again_in q c B1 B2); exact I.
Qed.
Lemma again_glob p : In p (cloud_glob o' dir) <-> In p (cloud_glob o dir).
Proof.
  rewrite !cloud_glob_in. split; intros [n [rest [c [E I]]]]; exists n, rest, c; (split; [exact E|]);
    (assert (B : within (entry dir n) (fst dir, snd dir ++ n :: rest)) by
       (exists rest; unfold entry; cbn [fst snd]; rewrite <- app_assoc; reflexivity));
    apply entry_below in B; destruct B as [B1 B2]; apply (again_in _ c B1 B2); exact I.
Qed.
Lemma glob_once x : NoDup (map fst x) -> (forall q c, within dir q -> q <> dir -> In (q, c) x -> In (q, c) o) -> NoDup (cloud_glob x dir).
Proof.
  intros N H. unfold cloud_glob. rewrite <- list_dir_filter. apply list_dir_nodup; [apply NoDup_fst_filter; exact N|].
  intros p q c c' I J W. apply filter_In in I. apply filter_In in J. destruct I as [I B], J as [J B']. cbn [fst] in B, B'.
  apply is_below_spec in B. apply is_below_spec in B'.
  apply (proj2 (proj2 Ok1) p q c c'); [apply H; tauto|apply H; tauto|exact W].
Qed.
Lemma again_sorted : sort_paths (cloud_glob o' dir) = sort_paths (cloud_glob o dir).
Proof.
  apply (sorted_entries dir).
  - intros p I. apply (Permutation_in _ (sort_paths_perm _)) in I. apply cloud_glob_in in I. destruct I as [n [_ [_ [-> _]]]]. exists n. reflexivity.
  - intros p. split; intros I; apply (Permutation_in _ (Permutation_sym (sort_paths_perm _))), again_glob;
      apply (Permutation_in _ (sort_paths_perm _)) in I; exact I.
  - eapply Permutation_NoDup; [symmetry; apply sort_paths_perm|]. apply glob_once; [exact N2|]. intros q c W D I. apply (again_in q c W D). exact I.
  - eapply Permutation_NoDup; [symmetry; apply sort_paths_perm|]. apply glob_once; [apply Ok1|]. auto.
  - apply sort_paths_sorted.
  - apply sort_paths_sorted.
Qed.
Lemma again_files F ps : (forall p, In p ps -> exists n, p = entry dir n) -> cloud_read_files F o' ps = cloud_read_files F o ps.
Proof.
  induction ps as [|p ps IH]; intros H; [reflexivity|]. cbn [cloud_read_files]. destruct (H p (or_introl eq_refl)) as [n ->].
  rewrite again_stat, IH by (intros q Hq; apply H; right; exact Hq). reflexivity.
Qed.
Lemma again_read F addr : cloud_path addr = Ok dir -> cloud_read_data_set F o' addr = cloud_read_data_set F o addr.
Proof.
  intros E. unfold cloud_read_data_set. rewrite E. cbn [bind]. rewrite again_sorted, again_files; [reflexivity|].
  intros p I. apply (Permutation_in _ (sort_paths_perm _)) in I. apply cloud_glob_in in I. destruct I as [n [_ [_ [-> _]]]]. exists n. reflexivity.
Qed.
End Again.

Section Prepare.
Variable L : lab.

Lemma cloud_first_read o de n : fst (cloud_by_name (lab_float L) {| cs_objects := o; cs_cache := [] |} de n) =
  cloud_read_data_set (lab_float L) o (os_join (de_dirpath de) n).
Proof. unfold cloud_by_name, cloud_cached_read. cbn. destruct (cloud_read_data_set _ _ _); reflexivity. Qed.

(** With the same data sets there are the same trials. *)
Lemma cloud_prepare_again dr data o o' ts g : has_address data -> dr_data_design L dr = cloud_address data ->
  (forall n, cloud_stat o (entry (to_path data) n) = Some Dir -> file_name n) ->
  objects_ok o -> NoDup (map fst o') ->
  (forall q, within (to_path data) q -> q <> to_path data -> obj_find o' q = obj_find o q) ->
  cloud_prepare L dr o = Ok (ts, g) ->
  exists ts', cloud_prepare L dr o' = Ok (ts', g) /\ Forall2 alike ts ts'.
Proof.
  intros Ha Ed Hf Ok1 N2 Same E.
  assert (Dp : (1 <= length (snd (to_path data)))%nat) by (destruct Ha as [_ [X _]]; destruct (snd (to_path data)); [contradiction|cbn; lia]).
  unfold cloud_prepare in *. rewrite Ed in *.
  destruct (cloud_open o data Ha) as [de [M1 [M2 [M3 M4]]]]. destruct (cloud_open o' data Ha) as [de' [M1' [M2' [M3' M4']]]].
  rewrite M1 in E. rewrite M1'. cbn [bind] in *.
  destruct (dr_fetch L dr (dr_seed L dr)) as [[descs g']|e]; cbn [bind] in *; [|discriminate].
  match type of E with context [generate_trials L ?x] => set (x0 := x) in * end.
  match goal with |- context [generate_trials L ?x] => set (x1 := x) in * end.
  destruct (generate_trials L x0) as [ts0|] eqn:G; cbn [bind] in E; [|discriminate].
  assert (ts0 = ts) by congruence. assert (g' = g) by congruence. subst ts0 g'.
  assert (En : sorted_names de' = sorted_names de).
  { apply names_equal; [exact M3|exact M3'|]. intros n. rewrite M4, M4'. rewrite (again_stat o o' (to_path data) Dp Ok1 N2 Same n). tauto. }
  destruct (alike_generate L x0 x1 ts eq_refl eq_refl eq_refl) as [ts' [T1 T2]].
  - exact En.
  - intros n Hn. cbn [x0 x1 xd_data cloud_opened dd_by_name dd_names] in *. rewrite !cloud_first_read, M2, M2'.
    apply (Permutation_in _ (sorted_names_perm _)) in Hn. apply M4 in Hn. apply Hf in Hn.
    rewrite os_join_file by assumption.
    apply (again_read o o' (entry (to_path data) n)).
    + rewrite entry_length. lia.
    + exact Ok1.
    + exact N2.
    + intros q W _. destruct (entry_below (to_path data) Dp n q W) as [W1 W2]. apply Same; assumption.
    + rewrite cloud_path_address by (apply os_join_slash; assumption). rewrite to_path_os_join by exact Hn. reflexivity.
  - exact G.
  - exists ts'. rewrite T1. cbn [bind]. split; [reflexivity|exact T2].
Qed.
End Prepare.

(** Trials on cloud storage: where their objects are, and what any number of processes that
    evaluate them do to each other. *)
From Coq Require Import String Ascii Permutation Sorted.
From Verif Require Import Prelude ModelReachPoint ModelData ModelAggregator ModelFiles SpecData SpecFiles
  FilesLemmas FilesLemmas2 FilesLemmas3 ModelHalo ModelDriver SpecDriver DriverLemmas4 ModelCloud SpecCloud
  CloudLemmas CloudLemmas2.
Open Scope Z_scope.

Lemma chars_append a b : chars (String.append a b) = chars a ++ chars b.
Proof. apply list_ascii_app. Qed.

Section Trials.
Variable L : lab.
Variable local : string.
Variable ts : list trial.
Hypothesis Sane : cloud_trials L local ts.
Notation F := (lab_float L).
Notation dir := (to_path local).
Notation R := (results_object L (to_path local)).
Notation M := (marker_object L (to_path local)).

Lemma csv_name s : ~ In slash s -> file_name (str (s ++ chars ".csv")).
Proof.
  intros H. unfold file_name. change list_ascii_of_string with chars. rewrite chars_str. split; [|split; [|split]].
  - intros X. apply (f_equal chars) in X. rewrite chars_str in X. destruct s; discriminate X.
  - intros X. apply (f_equal chars) in X. rewrite chars_str in X. destruct s as [|? [|? ?]]; discriminate X.
  - intros X. apply (f_equal chars) in X. rewrite chars_str in X. destruct s as [|? [|? [|? ?]]]; discriminate X.
  - intros X. apply in_app_iff in X. destruct X as [X|X]; [exact (H X)|]. cbn in X.
    repeat (destruct X as [X|X]; [discriminate X|]). exact X.
Qed.
Lemma R_path t : In t ts -> cloud_path (results_path F t) = Ok (R t).
Proof.
  intros I. destruct Sane as [[r Er] [_ [_ [H _]]]]. destruct (H t I) as [Ed [Hd [Hs _]]].
  assert (results_path F t = cloud_address (str (chars local ++ slash :: chars (tr_data_set t) ++ slash ::
            show_descriptor F (tr_descriptor t) ++ chars ".csv"))) as ->.
  { unfold results_path. rewrite Ed. apply chars_inj. unfold cloud_address. rewrite chars_str, !chars_append, chars_str, <- app_assoc. reflexivity. }
  rewrite cloud_path_address.
  - f_equal. unfold results_object. rewrite Er. unfold to_path at 1. fold (kept (list_ascii_of_string
      (str (chars (String "/" r) ++ slash :: chars (tr_data_set t) ++ slash :: show_descriptor F (tr_descriptor t) ++ chars ".csv")))).
    change list_ascii_of_string with chars. rewrite chars_str.
    pose proof (kept_name _ Hd) as K1. pose proof (kept_name _ (csv_name _ Hs)) as K2.
    change list_ascii_of_string with chars in K1, K2. rewrite chars_str in K2.
    rewrite kept_app, kept_app, K1, K2. unfold entry. cbn [fst snd]. rewrite <- app_assoc. reflexivity.
  - exists (str (chars r ++ slash :: chars (tr_data_set t) ++ slash :: show_descriptor F (tr_descriptor t) ++ chars ".csv")).
    rewrite Er. reflexivity.
Qed.
Lemma M_path t : In t ts -> cloud_pending L t = Ok (M t).
Proof.
  intros I. destruct Sane as [H1 [Hl [_ [H _]]]]. destruct (H t I) as [Ed [Hd [Hs Hm]]]. unfold cloud_pending, cloud_parent.
  rewrite Ed, (cloud_path_address local H1). cbn [bind].
  assert (Hf : fst dir = true) by (destruct H1 as [r ->]; reflexivity).
  assert (parent dir = (true, removelast (snd dir))) as Ep.
  { unfold parent. rewrite Hf. reflexivity. }
  rewrite Ep. unfold url.
  change (cloud_path (cloud_address (path_str (true, removelast (snd dir)) ++ String slash ("pending/" ++ lab_md5 L (results_path F t)))) = Ok (M t)).
  rewrite cloud_path_address.
  - rewrite to_path_under.
    + f_equal. unfold marker_object, entry. rewrite Ep. cbn [fst snd]. rewrite <- app_assoc. f_equal. f_equal.
      rewrite list_ascii_app. cbn [list_ascii_of_string app].
      change (kept (list_ascii_of_string "pending" ++ slash :: list_ascii_of_string (lab_md5 L (results_path F t))) = ["pending"%string; lab_md5 L (results_path F t)]).
      rewrite kept_app, (kept_name _ Hm). reflexivity.
    + apply Forall_forall. intros x X. assert (In x (snd dir)) as Y.
      { destruct (snd dir) as [|a l] eqn:El; [destruct X|]. rewrite <- El in *. rewrite (app_removelast_last ""%string) by (rewrite El; discriminate).
        apply in_app_iff. left. exact X. }
      revert Y. rewrite to_path_kept. pose proof (kept_components (list_ascii_of_string local)) as K. rewrite Forall_forall in K. apply K.
  - eexists. reflexivity.
Qed.

Lemma R_length t : length (snd (R t)) = S (S (length (snd dir))).
Proof. unfold results_object. rewrite !entry_length. reflexivity. Qed.
Lemma M_length t : length (snd (M t)) = S (length (snd dir)).
Proof.
  unfold marker_object. rewrite !entry_length. f_equal. destruct Sane as [_ [H _]]. unfold parent. cbn [snd].
  destruct (exists_last (l:=snd dir)) as [l [x E]]; [destruct (snd dir); [cbn in H; lia|discriminate]|].
  rewrite E, removelast_last, app_length. cbn [length]. lia.
Qed.
Lemma R_deep t : (2 <= length (snd (R t)))%nat.
Proof. rewrite R_length. lia. Qed.
Lemma M_deep t : (2 <= length (snd (M t)))%nat.
Proof. rewrite M_length. destruct Sane as [_ [H _]]. lia. Qed.
Lemma within_same p q : within p q -> length (snd p) = length (snd q) -> q = p.
Proof.
  intros [rest ->] E. cbn [snd] in E. rewrite app_length in E.
  assert (rest = []) as -> by (destruct rest; [reflexivity|cbn [length] in E; lia]). rewrite app_nil_r. destruct p; reflexivity.
Qed.
Lemma R_inj t t' : In t ts -> In t' ts -> R t = R t' -> t = t'.
Proof.
  intros I I' E. destruct Sane as [_ [_ [_ [_ [_ H]]]]]. unfold results_object, entry in E. cbn [fst snd] in E.
  apply pair_eq in E. destruct E as [_ E]. apply app_inj_tail in E. destruct E as [E1 E2]. apply app_inj_tail in E1. destruct E1 as [_ E1].
  apply str_inj, app_inv_tail in E2. exact (H t t' I I' E1 E2).
Qed.
Lemma M_inj t t' : In t ts -> In t' ts -> M t = M t' -> t = t'.
Proof.
  intros I I' E. unfold marker_object, entry in E. apply pair_eq in E. destruct E as [_ E]. apply app_inj_tail in E. destruct E as [_ E].
  pose proof Sane as [_ [_ [_ [_ [H _]]]]]. apply (H t t' I I') in E. apply R_inj; [exact I|exact I'|].
  pose proof (R_path t I) as X. pose proof (R_path t' I') as Y. rewrite E in X. congruence.
Qed.
Lemma R_not_M t t' : R t <> M t'.
Proof. intros E. apply (f_equal (fun p => length (snd p))) in E. rewrite R_length, M_length in E. lia. Qed.
Lemma R_R t t' : within (R t) (R t') -> R t' = R t.
Proof. intros W. apply within_same; [exact W|]. rewrite !R_length. reflexivity. Qed.
Lemma M_M t t' : within (M t) (M t') -> M t' = M t.
Proof. intros W. apply within_same; [exact W|]. rewrite !M_length. reflexivity. Qed.
Lemma R_M t t' : ~ within (R t) (M t').
Proof. intros W. apply within_length in W. rewrite R_length, M_length in W. lia. Qed.
Lemma M_R t t' : ~ within (M t) (R t').
Proof.
  intros [rest E]. destruct Sane as [_ [H [N _]]].
  destruct (exists_last (l:=snd dir)) as [l [x El]]; [destruct (snd dir); [cbn in H; lia|discriminate]|].
  rewrite El, last_last in N. unfold marker_object, results_object, entry, parent in E. cbn [fst snd] in E.
  rewrite El, removelast_last in E. apply pair_eq in E. destruct E as [_ E]. rewrite <- !app_assoc in E.
  apply app_inv_head in E. cbn [app] in E. injection E as E _. exact (N E).
Qed.

Notation usable_now := (cloud_usable L (to_path local) ts).

Lemma below_none o p : (2 <= length (snd p))%nat -> (forall q c, In (q, c) o -> within p q -> q = p) ->
  cloud_stat o p = match obj_find o p with Some c => Some (File c) | None => None end.
Proof.
  intros D H. rewrite cloud_stat_deep by exact D. destruct (obj_find o p); [reflexivity|].
  destruct (existsb (fun x => is_below p (fst x)) o) eqn:E; [|reflexivity]. exfalso.
  apply existsb_exists in E. destruct E as [[q c] [I E]]. cbn [fst] in E. apply is_below_spec in E. destruct E as [W N].
  exact (N (H q c I W)).
Qed.
Lemma R_stat o t : usable_now o -> In t ts ->
  cloud_stat o (R t) = match obj_find o (R t) with Some c => Some (File c) | None => None end.
Proof. intros [_ H] I. apply below_none; [apply R_deep|]. intros q c J. apply (H t q c I J). Qed.
Lemma M_stat o t : usable_now o -> In t ts ->
  cloud_stat o (M t) = match obj_find o (M t) with Some c => Some (File c) | None => None end.
Proof. intros [_ H] I. apply below_none; [apply M_deep|]. intros q c J. apply (H t q c I J). Qed.

Lemma obj_remove_in o p q c : In (q, c) (obj_remove o p) -> In (q, c) o.
Proof.
  induction o as [|[r m] o IH]; cbn [obj_remove]; [intros []|]. destruct (path_eqb p r).
  - intros I. right. exact (IH I).
  - intros [X|I]; [left; exact X|right; exact (IH I)].
Qed.
Lemma obj_remove_nodup o p : NoDup (map fst o) -> NoDup (map fst (obj_remove o p)).
Proof.
  induction o as [|[r m] o IH]; cbn [obj_remove map fst]; intros N; [constructor|]. inversion N as [|? ? N1 N2]; subst.
  destruct (path_eqb p r); [exact (IH N2)|]. cbn [map fst]. constructor; [|exact (IH N2)]. intros X. apply N1.
  apply in_map_iff in X. destruct X as [[q c] [E X]]. cbn [fst] in E. subst q. apply obj_remove_in in X.
  apply in_map_iff. exists (r, c). split; [reflexivity|exact X].
Qed.

Lemma usable_put_R o t c : usable_now o -> usable_now (obj_put o (R t) c).
Proof.
  intros [N H]. split; [apply obj_put_nodup; exact N|]. intros t' q m I J. apply obj_put_in in J; [|exact N].
  destruct J as [[-> _]|[_ J]]; [|exact (H t' q m I J)]. split; [apply R_R|]. intros W. exfalso. exact (M_R _ _ W).
Qed.
Lemma usable_put_M o t c : usable_now o -> usable_now (obj_put o (M t) c).
Proof.
  intros [N H]. split; [apply obj_put_nodup; exact N|]. intros t' q m I J. apply obj_put_in in J; [|exact N].
  destruct J as [[-> _]|[_ J]]; [|exact (H t' q m I J)]. split; [|apply M_M]. intros W. exfalso. exact (R_M _ _ W).
Qed.
Lemma usable_remove o p : usable_now o -> usable_now (obj_remove o p).
Proof.
  intros [N H]. split; [apply obj_remove_nodup; exact N|]. intros t' q m I J. apply obj_remove_in in J. exact (H t' q m I J).
Qed.

(** ** Phases of a process *)

Variable seed : Z.
Variable outcome : trial -> result (list (string * cell)).
Notation answer := (result table * generators L)%type.

(** The program after the row has been computed. *)
Definition clean (t : trial) (row : list (string * cell)) (g' : generators L) : cprog answer :=
  unlink_object (M t) true (fun r => match r with Err e => CRet (Err e, g') | Ok _ => CRet (Ok [row], g') end).
Definition keep (t : trial) (row : list (string * cell)) (g' : generators L) : cprog answer :=
  write_object (R t) (lab_print L [row]) (fun r => match r with Err e => CRet (Err e, g') | Ok _ => clean t row g' end).

Lemma recompute_is t now g : In t ts -> cloud_recompute L t seed now g (R t) =
  CLook (M t) (fun n => match n with
    | Some Dir => CRet (Err OtherError, g)
    | _ => CAct (Upload (M t) (pending_text L t now))
             (match compute_row L t seed g with
              | (Err e, g') => CRet (Err e, g')
              | (Ok row, g') => keep t row g'
              end)
    end).
Proof. intros I. unfold cloud_recompute. rewrite M_path by exact I. unfold write_object. reflexivity. Qed.

(** The results object of [t] is [c]. *)
Definition has (o : objects) (t : trial) (c : text) : Prop := obj_find o (R t) = Some c.

Variable o0 : objects.

(** Which step a process is at: the number of requests that may be left, and whether it has
    uploaded a marker that it has not removed yet. *)
Inductive phase (o : objects) (j : job L) : nat -> bool -> cprog answer -> Prop :=
| ph_start : phase o j 8 false (start seed j)
| ph_read : forall k c tb, has o (jb_trial j) c -> lab_parse L c = Ok tb ->
    k (Some (File c)) = CRet (Ok tb, jb_generators j) -> phase o j 1 false (CLook (R (jb_trial j)) k)
| ph_mark : obj_find o0 (R (jb_trial j)) = None ->
    phase o j 7 false (cloud_recompute L (jb_trial j) seed (jb_now j) (jb_generators j) (R (jb_trial j)))
| ph_marking : obj_find o0 (R (jb_trial j)) = None ->
    phase o j 6 false (CAct (Upload (M (jb_trial j)) (pending_text L (jb_trial j) (jb_now j)))
    (match compute_row L (jb_trial j) seed (jb_generators j) with
     | (Err e, g') => CRet (Err e, g')
     | (Ok row, g') => keep (jb_trial j) row g'
     end))
| ph_keep : forall row g', obj_find o0 (R (jb_trial j)) = None -> outcome (jb_trial j) = Ok row ->
    phase o j 5 true (keep (jb_trial j) row g')
| ph_keeping : forall row g', obj_find o0 (R (jb_trial j)) = None -> outcome (jb_trial j) = Ok row ->
    phase o j 4 true (CAct (Upload (R (jb_trial j)) (lab_print L [row])) (clean (jb_trial j) row g'))
| ph_clean : forall row g', obj_find o0 (R (jb_trial j)) = None -> outcome (jb_trial j) = Ok row -> has o (jb_trial j) (lab_print L [row]) ->
    phase o j 3 true (clean (jb_trial j) row g')
| ph_cleaning : forall k row g', obj_find o0 (R (jb_trial j)) = None -> outcome (jb_trial j) = Ok row -> has o (jb_trial j) (lab_print L [row]) ->
    (forall n, n <> Some Dir -> k n = CAct (Delete (M (jb_trial j))) (CRet (Ok [row], g'))) ->
    phase o j 2 true (CLook (M (jb_trial j)) k)
| ph_last : forall row g', obj_find o0 (R (jb_trial j)) = None -> outcome (jb_trial j) = Ok row -> has o (jb_trial j) (lab_print L [row]) ->
    phase o j 1 true (CAct (Delete (M (jb_trial j))) (CRet (Ok [row], g')))
| ph_done : forall c tb g', has o (jb_trial j) c -> lab_parse L c = Ok tb -> phase o j 0 false (CRet (Ok tb, g'))
| ph_failed : forall e g', obj_find o0 (R (jb_trial j)) = None -> outcome (jb_trial j) = Err e ->
    phase o j 0 false (CRet (Err e, g')).

Lemma phase_mono o o' j n h p : (forall c, has o (jb_trial j) c -> has o' (jb_trial j) c) -> phase o j n h p -> phase o' j n h p.
Proof. intros H P. destruct P; econstructor; eauto. Qed.

(** Every results object that is there is the one that was there or the printed row. *)
Definition final (t : trial) (c : text) : Prop :=
  match obj_find o0 (R t) with
  | Some c0 => c = c0
  | None => exists row, outcome t = Ok row /\ c = lab_print L [row]
  end.
Definition elsewhere (q : path) : Prop := forall t, In t ts -> q <> R t /\ (obj_find o0 (R t) = None -> q <> M t).
Definition sound (o : objects) : Prop :=
  usable_now o /\
  (forall t c, In t ts -> has o t c -> final t c) /\
  (forall t c, In t ts -> has o0 t c -> has o t c) /\
  (forall q, elsewhere q -> obj_find o q = obj_find o0 q).

Hypothesis Readable : forall t c, In t ts -> has o0 t c -> exists tb, lab_parse L c = Ok tb.
Hypothesis Back : forall t row, In t ts -> outcome t = Ok row -> lab_parse L (lab_print L [row]) = Ok [row].

Lemma sound_reads o t c : sound o -> In t ts -> has o t c ->
  exists tb, lab_parse L c = Ok tb /\ expected L (to_path local) o0 outcome t = Ok tb.
Proof.
  intros [_ [H _]] I X. apply H in X; [|exact I]. unfold final in X. unfold expected. destruct (obj_find o0 (R t)) as [c0|] eqn:E.
  - subst c0. destruct (Readable t c I E) as [tb Et]. exists tb. split; exact Et.
  - destruct X as [row [Eo ->]]. exists [row]. split; [exact (Back t row I Eo)|]. rewrite Eo. reflexivity.
Qed.

Lemma sound_put_M o t m : In t ts -> obj_find o0 (R t) = None -> sound o -> sound (obj_put o (M t) m) /\
  (forall t' c, In t' ts -> has (obj_put o (M t) m) t' c <-> has o t' c).
Proof.
  intros I N [U [H [K E]]].
  assert (S : forall t' c, In t' ts -> has (obj_put o (M t) m) t' c <-> has o t' c).
  { intros t' c _. unfold has. rewrite obj_find_put. destruct (path_eqb (R t') (M t)) eqn:X; [|tauto].
    apply path_eqb_spec in X. exfalso. exact (R_not_M _ _ X). }
  split; [|exact S]. split; [apply usable_put_M; exact U|]. split; [|split].
  - intros t' c J X. apply S in X; [|exact J]. exact (H t' c J X).
  - intros t' c J X. apply S; [exact J|]. exact (K t' c J X).
  - intros q X. rewrite obj_find_put. destruct (path_eqb q (M t)) eqn:Y; [|exact (E q X)].
    apply path_eqb_spec in Y. exfalso. exact (proj2 (X t I) N Y).
Qed.
Lemma sound_remove_M o t : In t ts -> obj_find o0 (R t) = None -> sound o -> sound (obj_remove o (M t)) /\
  (forall t' c, In t' ts -> has (obj_remove o (M t)) t' c <-> has o t' c).
Proof.
  intros I N [U [H [K E]]].
  assert (S : forall t' c, In t' ts -> has (obj_remove o (M t)) t' c <-> has o t' c).
  { intros t' c _. unfold has. rewrite obj_find_remove. destruct (path_eqb (R t') (M t)) eqn:X; [|tauto].
    apply path_eqb_spec in X. exfalso. exact (R_not_M _ _ X). }
  split; [|exact S]. split; [apply usable_remove; exact U|]. split; [|split].
  - intros t' c J X. apply S in X; [|exact J]. exact (H t' c J X).
  - intros t' c J X. apply S; [exact J|]. exact (K t' c J X).
  - intros q X. rewrite obj_find_remove. destruct (path_eqb q (M t)) eqn:Y; [|exact (E q X)].
    apply path_eqb_spec in Y. exfalso. exact (proj2 (X t I) N Y).
Qed.
Lemma sound_put_R o t row : In t ts -> obj_find o0 (R t) = None -> outcome t = Ok row -> sound o ->
  sound (obj_put o (R t) (lab_print L [row])) /\
  has (obj_put o (R t) (lab_print L [row])) t (lab_print L [row]) /\
  (forall t' c, In t' ts -> has o t' c -> has (obj_put o (R t) (lab_print L [row])) t' c) /\
  (forall t' c, In t' ts -> t' <> t -> has (obj_put o (R t) (lab_print L [row])) t' c -> has o t' c).
Proof.
  intros I N Eo [U [H [K E]]].
  assert (S : has (obj_put o (R t) (lab_print L [row])) t (lab_print L [row])).
  { unfold has. rewrite obj_find_put. destruct (path_eqb (R t) (R t)) eqn:X; [reflexivity|].
    exfalso. apply (path_eqb_spec (R t) (R t)) in X || (assert (path_eqb (R t) (R t) = true) by (apply path_eqb_spec; reflexivity); congruence). }
  assert (Old : forall t' c, In t' ts -> t' <> t -> has (obj_put o (R t) (lab_print L [row])) t' c <-> has o t' c).
  { intros t' c J D. unfold has. rewrite obj_find_put. destruct (path_eqb (R t') (R t)) eqn:X; [|tauto].
    apply path_eqb_spec in X. exfalso. exact (D (R_inj _ _ J I X)). }
  assert (Mono : forall t' c, In t' ts -> has o t' c -> has (obj_put o (R t) (lab_print L [row])) t' c).
  { intros t' c J X. destruct (path_dec (R t') (R t)) as [Y|Y].
    - apply R_inj in Y; [|exact J|exact I]. subst t'. apply H in X; [|exact I]. unfold final in X. rewrite N in X.
      destruct X as [row' [Er ->]]. assert (row' = row) as -> by congruence. exact S.
    - apply Old; [exact J| |exact X]. intros ->. exact (Y eq_refl). }
  split; [|split; [exact S|split; [exact Mono|intros t' c J D X; apply Old in X; assumption]]].
  split; [apply usable_put_R; exact U|]. split; [|split].
  - intros t' c J X. destruct (path_dec (R t') (R t)) as [Y|Y].
    + apply R_inj in Y; [|exact J|exact I]. subst t'. unfold has in X, S. assert (c = lab_print L [row]) as -> by congruence.
      unfold final. rewrite N. exists row. split; [exact Eo|reflexivity].
    + apply Old in X; [exact (H t' c J X)|exact J|]. intros ->. exact (Y eq_refl).
  - intros t' c J X. apply Mono; [exact J|]. exact (K t' c J X).
  - intros q X. rewrite obj_find_put. destruct (path_eqb q (R t)) eqn:Y; [|exact (E q X)].
    apply path_eqb_spec in Y. exfalso. exact (proj1 (X t I) Y).
Qed.

(** One step of one process. *)
Lemma phase_step o j n h p : sound o -> In (jb_trial j) ts ->
  fst (compute_row L (jb_trial j) seed (jb_generators j)) = outcome (jb_trial j) -> phase o j n h p ->
  exists o' p' n' h', cloud_advance o p = (o', p') /\ sound o' /\ phase o' j n' h' p' /\ (n' <= n - 1)%nat /\
    (forall t c, In t ts -> has o t c -> has o' t c) /\
    (forall t c, In t ts -> t <> jb_trial j -> has o' t c -> has o t c) /\
    (forall t, In t ts -> t <> jb_trial j -> obj_find o' (M t) = obj_find o (M t)) /\
    (h' = false -> obj_find o0 (R (jb_trial j)) = None -> (exists c, has o' (jb_trial j) c) ->
     obj_find o' (M (jb_trial j)) <> None ->
     h = false /\ (exists c, has o (jb_trial j) c) /\ obj_find o (M (jb_trial j)) <> None).
Proof.
  intros So I Ec P. pose proof So as [U _]. set (t := jb_trial j) in *.
  assert (Stay : forall p' n' h', phase o j n' h' p' -> (n' <= n - 1)%nat -> (h = true -> h' = true) ->
    cloud_advance o p = (o, p') -> 
    exists o' p' n' h', cloud_advance o p = (o', p') /\ sound o' /\ phase o' j n' h' p' /\ (n' <= n - 1)%nat /\
    (forall t c, In t ts -> has o t c -> has o' t c) /\
    (forall t c, In t ts -> t <> jb_trial j -> has o' t c -> has o t c) /\
    (forall t, In t ts -> t <> jb_trial j -> obj_find o' (M t) = obj_find o (M t)) /\
    (h' = false -> obj_find o0 (R (jb_trial j)) = None -> (exists c, has o' (jb_trial j) c) ->
     obj_find o' (M (jb_trial j)) <> None ->
     h = false /\ (exists c, has o (jb_trial j) c) /\ obj_find o (M (jb_trial j)) <> None)).
  { intros p' n' h' Q Le Hh E. exists o, p', n', h'. split; [exact E|]. split; [exact So|]. split; [exact Q|]. split; [exact Le|].
    split; [auto|]. split; [auto|]. split; [auto|]. intros -> _ X Y. split; [|split; assumption].
    destruct h; [|reflexivity]. symmetry. apply Hh. reflexivity. }
  destruct P as [|k c tb Hc Hp Hk|N|N|row g' N Eo|row g' N Eo|row g' N Eo Hc|k row g' N Eo Hc Hk|row g' N Eo Hc|c tb g' Hc Hp|e g' N Eo].
  - (* start *)
    unfold start, cloud_evaluate in Stay |- *. fold t in Stay |- *. rewrite (R_path t I) in Stay |- *.
    cbn [cloud_advance] in Stay |- *. rewrite (R_stat o t U I) in Stay |- *.
    destruct (obj_find o (R t)) as [c|] eqn:E.
    + destruct (sound_reads o t c So I E) as [tb [Et _]].
      refine (Stay _ 1%nat false _ _ _ eq_refl); [|lia|discriminate].
      apply (ph_read o j _ c tb E Et). cbn [parse_node]. rewrite Et. reflexivity.
    + refine (Stay _ 7%nat false _ _ _ eq_refl); [|lia|discriminate]. apply ph_mark.
      fold t. destruct (obj_find o0 (R t)) as [c|] eqn:E0; [|reflexivity]. destruct So as [_ [_ [K _]]]. apply (K t c I) in E0. unfold has in E0. congruence.
  - (* reading *)
    cbn [cloud_advance] in Stay |- *. fold t in Hc, Stay |- *. unfold has in Hc. rewrite (R_stat o t U I), Hc in Stay |- *. rewrite Hk in Stay |- *.
    apply (Stay _ 0%nat false (ph_done o j c tb (jb_generators j) Hc Hp)); [lia|discriminate|reflexivity].
  - (* marking: the look *)
    rewrite recompute_is in Stay |- * by exact I. cbn [cloud_advance] in Stay |- *. fold t in Stay |- *. rewrite (M_stat o t U I) in Stay |- *.
    assert (X : phase o j 6 false (CAct (Upload (M t) (pending_text L t (jb_now j)))
              (match compute_row L t seed (jb_generators j) with (Err e, g') => CRet (Err e, g') | (Ok row, g') => keep t row g' end)))
      by (apply ph_marking; exact N).
    destruct (obj_find o (M t)); (apply (Stay _ 6%nat false X); [lia|discriminate|reflexivity]).
  - (* marking: the upload *)
    cbn [cloud_advance cloud_run]. fold t. destruct (sound_put_M o t (pending_text L t (jb_now j)) I N So) as [So' Same].
    destruct (compute_row L t seed (jb_generators j)) as [[row|e] g'] eqn:Er; cbn [fst] in Ec.
    + exists (obj_put o (M t) (pending_text L t (jb_now j))), (keep t row g'), 5%nat, true. split; [reflexivity|]. split; [exact So'|].
      split; [apply ph_keep; [exact N|symmetry; exact Ec]|]. split; [lia|]. split; [intros t' c J X; apply Same; assumption|].
      split; [intros t' c J _ X; apply Same in X; assumption|]. split; [|discriminate].
      intros t' J D. rewrite obj_find_put. destruct (path_eqb (M t') (M t)) eqn:X; [|reflexivity].
      apply path_eqb_spec in X. exfalso. exact (D (M_inj _ _ J I X)).
    + exists (obj_put o (M t) (pending_text L t (jb_now j))), (CRet (Err e, g')), 0%nat, false. split; [reflexivity|]. split; [exact So'|].
      split; [apply ph_failed; [exact N|symmetry; exact Ec]|]. split; [lia|]. split; [intros t' c J X; apply Same; assumption|].
      split; [intros t' c J _ X; apply Same in X; assumption|]. split.
      * intros t' J D. rewrite obj_find_put. destruct (path_eqb (M t') (M t)) eqn:X; [|reflexivity].
        apply path_eqb_spec in X. exfalso. exact (D (M_inj _ _ J I X)).
      * intros _ _ [c X] _. exfalso. destruct So' as [_ [H _]]. apply (H t c I) in X. unfold final in X. fold t in N. rewrite N in X.
        destruct X as [row [X _]]. rewrite <- Ec in X. discriminate.
  - (* writing: the look *)
    unfold keep, write_object in Stay |- *. cbn [cloud_advance] in Stay |- *. fold t in Stay |- *. rewrite (R_stat o t U I) in Stay |- *.
    assert (X : phase o j 4 true (CAct (Upload (R t) (lab_print L [row])) (clean t row g'))) by (apply ph_keeping; assumption).
    destruct (obj_find o (R t)); (apply (Stay _ 4%nat true X); [lia|reflexivity|reflexivity]).
  - (* writing: the upload *)
    cbn [cloud_advance cloud_run]. fold t. destruct (sound_put_R o t row I N Eo So) as [So' [Hc [Mono Old]]].
    exists (obj_put o (R t) (lab_print L [row])), (clean t row g'), 3%nat, true. split; [reflexivity|]. split; [exact So'|].
    split; [apply ph_clean; assumption|]. split; [lia|]. split; [exact Mono|]. split; [exact Old|]. split; [|discriminate].
    intros t' J D. rewrite obj_find_put. destruct (path_eqb (M t') (R t)) eqn:X; [|reflexivity].
    apply path_eqb_spec in X. exfalso. exact (R_not_M _ _ (eq_sym X)).
  - (* cleaning: the first look *)
    pose proof (Back t row I Eo) as Eb. unfold clean, unlink_object in Stay |- *. cbn [cloud_advance] in Stay |- *. fold t in Stay |- *.
    rewrite (M_stat o t U I) in Stay |- *. destruct (obj_find o (M t)) as [m|] eqn:Em.
    + refine (Stay _ 2%nat true _ _ _ eq_refl); [|lia|reflexivity]. apply (ph_cleaning o j _ row g' N Eo Hc).
      intros n Hn. destruct n as [[|c]|]; [contradiction|reflexivity|reflexivity].
    + exists o, (CRet (Ok [row], g')), 0%nat, false. split; [reflexivity|]. split; [exact So|].
      split; [exact (ph_done o j (lab_print L [row]) [row] g' Hc Eb)|]. split; [lia|]. split; [auto|]. split; [auto|]. split; [auto|].
      intros _ _ _ X. exfalso. exact (X Em).
  - (* cleaning: the second look *)
    cbn [cloud_advance] in Stay |- *. fold t in Stay |- *. rewrite (M_stat o t U I) in Stay |- *.
    assert (X : k match obj_find o (M t) with Some c => Some (File c) | None => None end = CAct (Delete (M t)) (CRet (Ok [row], g'))).
    { apply Hk. destruct (obj_find o (M t)); discriminate. }
    rewrite X in Stay |- *. apply (Stay _ 1%nat true (ph_last o j row g' N Eo Hc)); [lia|reflexivity|reflexivity].
  - (* cleaning: the removal *)
    pose proof (Back t row I Eo) as Eb. cbn [cloud_advance cloud_run]. fold t. destruct (sound_remove_M o t I N So) as [So' Same].
    exists (obj_remove o (M t)), (CRet (Ok [row], g')), 0%nat, false. split; [reflexivity|]. split; [exact So'|].
    split; [apply (ph_done _ j (lab_print L [row]) [row] g'); [apply Same; assumption|exact Eb]|]. split; [lia|].
    split; [intros t' c J X; apply Same; assumption|]. split; [intros t' c J _ X; apply Same in X; assumption|]. split.
    + intros t' J D. rewrite obj_find_remove. destruct (path_eqb (M t') (M t)) eqn:X; [|reflexivity].
      apply path_eqb_spec in X. exfalso. exact (D (M_inj _ _ J I X)).
    + intros _ _ _ X. exfalso. apply X. rewrite obj_find_remove. assert (path_eqb (M t) (M t) = true) as -> by (apply path_eqb_spec; reflexivity). reflexivity.
  - apply (Stay _ 0%nat false (ph_done o j c tb g' Hc Hp)); [lia|discriminate|reflexivity].
  - apply (Stay _ 0%nat false (ph_failed o j e g' N Eo)); [lia|discriminate|reflexivity].
Qed.

(** ** Any number of processes *)

Variable jobs : list (job L).
Hypothesis Jobs : forall j, In j jobs -> In (jb_trial j) ts /\
  fst (compute_row L (jb_trial j) seed (jb_generators j)) = outcome (jb_trial j).

Definition phases_ok (o : objects) (ps : list (cprog answer)) (phs : nat -> nat * bool) : Prop :=
  length ps = length jobs /\
  forall i j p, nth_error jobs i = Some j -> nth_error ps i = Some p -> phase o j (fst (phs i)) (snd (phs i)) p.
(** A marker that is there beside a new results object will be removed by some process. *)
Definition markers_ok (o : objects) (phs : nat -> nat * bool) : Prop :=
  forall t, In t ts -> obj_find o0 (R t) = None -> (exists c, has o t c) -> obj_find o (M t) <> None ->
    exists i j, nth_error jobs i = Some j /\ jb_trial j = t /\ snd (phs i) = true.

Lemma nth_error_set_nth {A} i (x : A) l k : nth_error (set_nth i x l) k =
  if Nat.eqb k i then match nth_error l i with Some _ => Some x | None => None end else nth_error l k.
Proof.
  revert i k. induction l as [|a l IH]; intros i k.
  - assert (set_nth i x [] = @nil A) as -> by (destruct i; reflexivity). destruct (Nat.eqb k i); destruct i, k; reflexivity.
  - destruct i, k; cbn [set_nth nth_error Nat.eqb]; try reflexivity. apply IH.
Qed.
Lemma set_nth_length' {A} i (x : A) l : length (set_nth i x l) = length l.
Proof. revert i. induction l as [|a l IH]; intros [|i]; cbn [set_nth length]; auto. Qed.

Lemma interleave_phases schedule : forall o ps phs, sound o -> phases_ok o ps phs -> markers_ok o phs ->
  exists phs', let '(o', ps') := cloud_interleave schedule o ps in
    sound o' /\ phases_ok o' ps' phs' /\ markers_ok o' phs' /\
    forall i, (i < length jobs)%nat -> (fst (phs' i) <= fst (phs i) - count_occ Nat.eq_dec schedule i)%nat.
Proof.
  induction schedule as [|i schedule IH]; intros o ps phs So Ph Mk.
  - exists phs. cbn [cloud_interleave]. split; [exact So|]. split; [exact Ph|]. split; [exact Mk|]. intros i _. cbn [count_occ]. lia.
  - cbn [cloud_interleave]. destruct (nth_error ps i) as [p|] eqn:Ep.
    + pose proof Ph as [Len PhA]. assert (Hi : (i < length jobs)%nat) by (rewrite <- Len; apply nth_error_Some; congruence).
      destruct (nth_error jobs i) as [j|] eqn:Ej; [|exfalso; apply nth_error_None in Ej; lia].
      destruct (Jobs j (nth_error_In _ _ Ej)) as [I Ec].
      destruct (phase_step o j _ _ p So I Ec (PhA i j p Ej Ep)) as [o' [p' [n' [h' [Ea [So' [P' [Le [Mono [Old [OM Hm]]]]]]]]]]].
      rewrite Ea. set (phs1 := fun k => if Nat.eqb k i then (n', h') else phs k).
      destruct (IH o' (set_nth i p' ps) phs1 So') as [phs' H].
      * split; [rewrite set_nth_length'; exact Len|]. intros k j' q Ek Eq. rewrite nth_error_set_nth in Eq. unfold phs1.
        destruct (Nat.eqb k i) eqn:Eki.
        -- apply Nat.eqb_eq in Eki. subst k. rewrite Ep in Eq. injection Eq as <-. assert (j' = j) as -> by congruence. exact P'.
        -- apply (phase_mono o); [|exact (PhA k j' q Ek Eq)]. intros c. apply Mono. apply (Jobs j'). apply (nth_error_In _ _ Ek).
      * intros t It N Hc Hmk. unfold phs1.
        destruct (path_dec (R t) (R (jb_trial j))) as [Et|Et].
        -- apply R_inj in Et; [|exact It|exact I]. subst t. destruct h' eqn:Eh.
           ++ exists i, j. split; [exact Ej|]. split; [reflexivity|]. rewrite Nat.eqb_refl. reflexivity.
           ++ destruct (Hm eq_refl N Hc Hmk) as [Hh [Hc' Hm']]. destruct (Mk _ It N Hc' Hm') as [k [j' [Ek [Et Hk]]]].
              exists k, j'. split; [exact Ek|]. split; [exact Et|]. destruct (Nat.eqb k i) eqn:Eki; [|exact Hk].
              apply Nat.eqb_eq in Eki. subst k. congruence.
        -- assert (D : t <> jb_trial j) by (intros ->; exact (Et eq_refl)). destruct Hc as [c Hc].
           destruct (Mk t It N) as [k [j' [Ek [E' Hk]]]]; [exists c; exact (Old t c It D Hc)|rewrite <- (OM t It D); exact Hmk|].
           exists k, j'. split; [exact Ek|]. split; [exact E'|]. destruct (Nat.eqb k i) eqn:Eki; [|exact Hk].
           apply Nat.eqb_eq in Eki. subst k. exfalso. apply D. congruence.
      * exists phs'. destruct (cloud_interleave schedule o' (set_nth i p' ps)) as [o2 ps2]. destruct H as [A [B [C D]]].
        split; [exact A|]. split; [exact B|]. split; [exact C|]. intros k Hk. specialize (D k Hk). unfold phs1 in D. cbn [count_occ].
        destruct (Nat.eq_dec i k) as [->|Nk].
        -- rewrite Nat.eqb_refl in D. cbn [fst] in D. lia.
        -- assert (Nat.eqb k i = false) as X by (apply Nat.eqb_neq; congruence). rewrite X in D. exact D.
    + destruct (IH o ps phs So Ph Mk) as [phs' H]. exists phs'. destruct (cloud_interleave schedule o ps) as [o2 ps2].
      destruct H as [A [B [C D]]]. split; [exact A|]. split; [exact B|]. split; [exact C|]. intros k Hk. specialize (D k Hk). cbn [count_occ].
      destruct (Nat.eq_dec i k) as [->|Nk]; [|exact D]. exfalso. destruct Ph as [Len _]. apply nth_error_None in Ep. lia.
Qed.

Hypothesis Start : usable_now o0.
Lemma start_sound : sound o0.
Proof.
  split; [exact Start|]. split; [|split; [auto|reflexivity]]. intros t c I H. unfold final, has in *. rewrite H. reflexivity.
Qed.
Lemma phase_done o j n h a : In (jb_trial j) ts -> phase o j n h (CRet a) -> h = false /\
  ((exists c tb g', a = (Ok tb, g') /\ has o (jb_trial j) c /\ lab_parse L c = Ok tb) \/
   (exists e g', a = (Err e, g') /\ outcome (jb_trial j) = Err e /\ obj_find o0 (R (jb_trial j)) = None)).
Proof.
  intros I P. remember (CRet a) as q eqn:E.
  destruct P as [|k c tb Hc Hp Hk|N|N|row g' N Eo|row g' N Eo|row g' N Eo Hc|k row g' N Eo Hc Hk|row g' N Eo Hc|c tb g' Hc Hp|e g' N Eo];
    try discriminate E.
  - unfold start, cloud_evaluate in E. rewrite R_path in E by exact I. discriminate E.
  - rewrite recompute_is in E by exact I. discriminate E.
  - injection E as <-. split; [reflexivity|]. left. exists c, tb, g'. split; [reflexivity|]. split; assumption.
  - injection E as <-. split; [reflexivity|]. right. exists e, g'. split; [reflexivity|]. split; assumption.
Qed.
Lemma phase_zero o j h p : In (jb_trial j) ts -> phase o j 0 h p -> exists a, p = CRet a.
Proof. intros I P. remember 0%nat as n eqn:E. destruct P; try discriminate E; eexists; reflexivity. Qed.

Lemma attempts_safe schedule :
  let '(o', ps) := cloud_interleave schedule o0 (map (start seed) jobs) in
  (forall t c, In t ts -> has o' t c -> final t c) /\
  (forall t c, In t ts -> has o0 t c -> has o' t c) /\
  (forall t, In t ts -> cloud_stat o' (R t) <> Some Dir /\ cloud_stat o' (M t) <> Some Dir) /\
  (forall q, elsewhere q -> obj_find o' q = obj_find o0 q) /\
  (forall i j r g', nth_error jobs i = Some j -> nth_error ps i = Some (CRet (r, g')) ->
     r = expected L (to_path local) o0 outcome (jb_trial j) /\
     (forall tb, r = Ok tb -> exists c, has o' (jb_trial j) c /\ lab_parse L c = Ok tb)) /\
  (forall i, (i < length jobs)%nat -> (8 <= count_occ Nat.eq_dec schedule i)%nat -> exists a, nth_error ps i = Some (CRet a)) /\
  ((forall i, (i < length jobs)%nat -> exists a, nth_error ps i = Some (CRet a)) ->
   forall t c, In t ts -> obj_find o0 (R t) = None -> has o' t c -> obj_find o' (M t) = None).
Proof.
  destruct (interleave_phases schedule o0 (map (start seed) jobs) (fun _ => (8%nat, false)) start_sound) as [phs H].
  { split; [apply map_length|]. intros i j p Ej Ep. rewrite nth_error_map, Ej in Ep. injection Ep as <-. apply ph_start. }
  { intros t I N [c X]. unfold has in X. congruence. }
  destruct (cloud_interleave schedule o0 (map (start seed) jobs)) as [o' ps]. destruct H as [So [[Len Ph] [Mk Cn]]].
  pose proof So as [U [Fi [Ke El]]].
  split; [exact Fi|]. split; [exact Ke|]. split.
  { intros t I. rewrite R_stat, M_stat by assumption. split; [destruct (obj_find o' (R t))|destruct (obj_find o' (M t))]; discriminate. }
  split; [exact El|]. split; [|split].
  - intros i j r g' Ej Ep. pose proof (proj1 (Jobs j (nth_error_In _ _ Ej))) as I.
    destruct (phase_done _ _ _ _ _ I (Ph i j _ Ej Ep)) as [_ [[c [tb [g1 [Ea [Hc Hp]]]]]|[e [g1 [Ea [Eo N]]]]]].
    + apply pair_eq in Ea. destruct Ea as [-> _]. destruct (sound_reads o' _ c So I Hc) as [tb' [E1 E2]]. split; [congruence|].
      intros tb0 E0. exists c. split; [exact Hc|congruence].
    + apply pair_eq in Ea. destruct Ea as [-> _]. unfold expected. rewrite N, Eo. split; [reflexivity|discriminate].
  - intros i Hi Hc. specialize (Cn i Hi). cbn [fst] in Cn. assert (Z0 : fst (phs i) = 0%nat) by lia.
    destruct (nth_error jobs i) as [j|] eqn:Ej; [|apply nth_error_None in Ej; lia].
    destruct (nth_error ps i) as [p|] eqn:Ep; [|apply nth_error_None in Ep; lia].
    pose proof (Ph i j p Ej Ep) as P. rewrite Z0 in P.
    destruct (phase_zero _ _ _ _ (proj1 (Jobs j (nth_error_In _ _ Ej))) P) as [a ->]. exists a. reflexivity.
  - intros All t c I N Hc. destruct (obj_find o' (M t)) as [m|] eqn:Em; [|reflexivity]. exfalso.
    destruct (Mk t I N (ex_intro _ c Hc)) as [i [j [Ej [_ Hh]]]]; [congruence|].
    destruct (All i) as [a Ea]; [apply nth_error_Some; congruence|].
    destruct (phase_done _ _ _ _ _ (proj1 (Jobs j (nth_error_In _ _ Ej))) (Ph i j _ Ej Ea)) as [X _]. congruence.
Qed.
End Trials.

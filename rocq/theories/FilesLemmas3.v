(** Proofs about writing data sets and reading them back, the read cache, data designs. *)
From Coq Require Import String Ascii Permutation Sorted.
From Verif Require Import Prelude ModelReachPoint ModelData ModelFiles SpecData SpecFiles
  ReachPointLemmas DataLemmas DataLemmas2 DataLemmas3 FilesLemmas FilesLemmas2.
Open Scope Z_scope.

(** ** os.path.join *)

Lemma split_on_app_gen c a b : split_on c (a ++ c :: b) = split_on c a ++ split_on c b.
Proof.
  induction a as [|x r IH]; simpl.
  - pose proof (split_on_nonempty c b). destruct (split_on c b); [contradiction|].
    rewrite Ascii.eqb_refl. auto.
  - rewrite IH. pose proof (split_on_nonempty c r). destruct (split_on c r); [contradiction|].
    simpl. destruct (Ascii.eqb x c); auto.
Qed.

Lemma list_ascii_app a b :
  list_ascii_of_string (a ++ b)%string = list_ascii_of_string a ++ list_ascii_of_string b.
Proof. induction a; simpl; congruence. Qed.

Lemma keep_file_name n : file_name n ->
  filter (fun x => negb (String.eqb x "" || String.eqb x ".")) (map string_of_list_ascii (split_on slash (list_ascii_of_string n))) = [n].
Proof.
  intros H. pose proof (to_path_file_name n H) as E. unfold to_path in E. inversion E as [[E1 E2]].
  rewrite E2. auto.
Qed.

Lemma to_path_os_join a n : file_name n -> to_path (os_join a n) = entry (to_path a) n.
Proof.
  intros H. pose proof H as [H1 [H2 [_ H3]]].
  destruct n as [|c n']; [contradiction|].
  unfold os_join. assert (Ascii.eqb c slash = false) as ->.
  { apply Ascii.eqb_neq. intros ->. apply H3. left; auto. }
  destruct a as [|c0 a']; [rewrite to_path_file_name by auto; auto|].
  set (n := String c n') in *. set (a := String c0 a') in *.
  assert (list_ascii_of_string a <> []) as Ha by discriminate.
  assert (forall x, (match list_ascii_of_string (a ++ x)%string with c :: _ => Ascii.eqb c slash | [] => false end)
          = (match list_ascii_of_string a with c :: _ => Ascii.eqb c slash | [] => false end)) as Habs
    by reflexivity.
  destruct (Ascii.eqb (last (list_ascii_of_string a) slash) slash) eqn:L.
  - apply Ascii.eqb_eq in L. unfold to_path at 1. rewrite Habs.
    unfold entry, to_path. cbn [fst snd]. f_equal.
    rewrite list_ascii_app.
    pose proof (app_removelast_last slash Ha) as EA. rewrite L in EA.
    rewrite EA. generalize (removelast (list_ascii_of_string a)). intros A'.
    rewrite <- app_assoc. change ([slash] ++ list_ascii_of_string n) with (slash :: list_ascii_of_string n).
    rewrite !split_on_app_gen, !map_app, !filter_app. pose proof (keep_file_name n H) as K. unfold text in *. rewrite K.
    change (split_on slash []) with [@nil ascii]. cbn [map string_of_list_ascii filter String.eqb orb negb].
    rewrite app_nil_r. auto.
  - unfold to_path at 1. rewrite Habs. unfold entry, to_path. cbn [fst snd]. f_equal.
    rewrite list_ascii_app. change (list_ascii_of_string ("/" ++ n)%string) with (slash :: list_ascii_of_string n).
    rewrite !split_on_app_gen, !map_app, !filter_app. pose proof (keep_file_name n H) as K. unfold text in *. rewrite K. auto.
Qed.

(** ** Publishers written and read back *)

Lemma read_written F p log path :
  is_publisher_of log p -> Forall (fun r => prints_back F (snd r)) log ->
  exists p', read_file F path (write_publisher_data F p) = Ok p' /\
    is_publisher_of (pd_data p) p' /\ pd_data p' = pd_data p /\ pd_name p' = path_str path.
Proof.
  intros [rn [nm H]] HF. pose proof (publisher_fields _ _ _ _ H) as [Hd [_ [Hm _]]].
  assert (Forall (fun r => prints_back F (snd r)) (pd_data p)) as HF'.
  { rewrite Hd. rewrite Forall_forall in *. intros x I. apply HF.
    apply (Permutation_in _ (sort_rows_perm log)). auto. }
  assert (pd_data p <> []) as Hne.
  { intros E. rewrite Hd in E. apply (f_equal (@length row)) in E. rewrite sort_rows_length in E.
    destruct log; [discriminate|simpl in E; discriminate]. }
  unfold read_file, read_publisher_data, write_publisher_data. rewrite written_log by auto.
  destruct (pd_data p) as [|x r] eqn:Ep; [contradiction|].
  unfold mk_publisher. cbn [map py_maxQ bind]. eexists. split; [reflexivity|]. split; [|split].
  - exists (path_str path), None. unfold mk_publisher, set_name. cbn [map py_maxQ bind pd_data pd_spends
      pd_max_spend pd_max_reach]. reflexivity.
  - cbn [set_name pd_data]. rewrite Hd. apply sort_rows_idem.
  - reflexivity.
Qed.

Lemma read_written_all F dir (l : list publisher_data) logs :
  Forall2 is_publisher_of logs l -> Forall (Forall (fun r => prints_back F (snd r))) logs ->
  exists l', mapM (fun x => read_file F (entry dir (fst x)) (snd x))
                  (map (fun p => (pd_name p, write_publisher_data F p)) l) = Ok l' /\
    Forall2 is_publisher_of (map pd_data l) l' /\
    Forall2 (fun p p' => pd_data p' = pd_data p /\ pd_name p' = path_str (entry dir (pd_name p))) l l'.
Proof.
  induction 1 as [|log p logs l H _ IH]; intros HF.
  - exists []. repeat split; constructor.
  - inversion HF as [|? ? HF1 HF2]; subst. destruct (IH HF2) as [l' [E [I1 I2]]].
    destruct (read_written F p log (entry dir (pd_name p)) H HF1) as [p' [E1 [I3 [I4 I5]]]].
    exists (p' :: l'). cbn [map mapM fst snd]. rewrite E1. cbn [bind]. rewrite E. cbn [bind].
    repeat split; auto.
Qed.

Lemma Forall2_perm_r {A B} (R : A -> B -> Prop) l1 l2 l2' :
  Forall2 R l1 l2 -> Permutation l2 l2' -> exists l1', Permutation l1 l1' /\ Forall2 R l1' l2'.
Proof.
  intros H P. revert l1 H. induction P; intros l1 H.
  - exists l1. auto.
  - inversion H; subst. destruct (IHP _ H4) as [l1' [P1 F1]]. exists (x0 :: l1'). split; auto.
  - inversion H as [|a b l3 l4 H2 H3]; subst. inversion H3 as [|a' b' l5 l6 H4 H5]; subst.
    exists (a' :: a :: l5). split; [apply perm_swap|]. constructor; auto.
  - destruct (IHP1 _ H) as [l1' [P3 F1]]. destruct (IHP2 _ F1) as [l1'' [P4 F2]].
    exists l1''. split; auto. eapply perm_trans; eauto.
Qed.

Lemma sort_pubs (l : list publisher_data) : NoDup (map pd_name l) ->
  exists l', Permutation l' l /\ StronglySorted (fun x y => String.ltb (pd_name x) (pd_name y) = true) l'.
Proof.
  assert (forall x (s : list publisher_data),
    StronglySorted (fun x y => String.ltb (pd_name x) (pd_name y) = true) s -> ~ In (pd_name x) (map pd_name s) ->
    exists s', Permutation s' (x :: s) /\
      StronglySorted (fun x y => String.ltb (pd_name x) (pd_name y) = true) s') as Ins.
  { intros x s. induction 1 as [|y s H IH F]; intros N.
    - exists [x]. split; auto. repeat constructor.
    - destruct (String.leb (pd_name x) (pd_name y)) eqn:E.
      + assert (String.ltb (pd_name x) (pd_name y) = true) as L.
        { apply leb_ltb; auto. intros X. apply N. left; auto. }
        exists (x :: y :: s). split; auto. constructor; [constructor; auto|]. constructor; auto.
        eapply Forall_impl; [|exact F]. intros z Hz. eapply ltb_trans; eauto.
      + destruct IH as [s' [P S']]; [intros I; apply N; right; auto|].
        exists (y :: s'). split.
        * rewrite P. apply perm_swap.
        * constructor; auto. rewrite Forall_forall in *. intros z I.
          apply (Permutation_in _ P) in I. destruct I as [<-|I]; auto. apply leb_false; auto. }
  induction l as [|x l IH]; intros N.
  - exists []. split; auto. constructor.
  - inversion N as [|? ? N1 N2]; subst. destruct (IH N2) as [l' [P S']].
    destruct (Ins x l' S') as [s' [P' S'']].
    { intros I. apply N1. eapply Permutation_in; [|exact I]. apply Permutation_map; auto. }
    exists s'. split; auto. rewrite P', P. auto.
Qed.

Lemma truthy_nonempty s : s <> ""%string -> truthy s = true.
Proof. destruct s; [contradiction|auto]. Qed.

Lemma total_audience_same pubs pubs' :
  Forall2 (fun p p' => pd_data p' = pd_data p) pubs pubs' -> total_audience pubs' = total_audience pubs.
Proof.
  unfold total_audience. induction 1 as [|p p' l l' H _ IH]; simpl; auto. rewrite H, IH. auto.
Qed.

(** The directory [base/n], with nothing there before. *)
Lemma write_read F k base n d dirpath :
  disk_ok k -> storable F d -> file_name n ->
  to_path dirpath = entry base n -> no_file_on_the_way k (entry base n) ->
  stat k (entry base n) = None ->
  exists k' d', run_ops k (write_ops F (entry base n) d) = (Ok tt, k') /\
    read_data_set F k' dirpath = Ok d' /\ disk_ok k' /\
    same_publishers (entry base n) d d' /\
    (exists logs', is_data_set_of logs' d') /\
    ds_name d' = n /\ ds_maximum_reach d' = ds_maximum_reach d /\
    ds_universe d' = 2 * ds_maximum_reach d /\
    stat k' (entry base n) = Some Dir /\
    (forall q, on_the_way (entry base n) q -> stat k' q = Some Dir) /\
    (forall q, ~ within (entry base n) q -> ~ on_the_way (entry base n) q -> stat k' q = stat k q).
Proof.
  intros Hk [[logs [Hd HF]] [HN ND]] Hn Ep HW Hnone.
  set (dir := entry base n) in *.
  assert (forall name, stat k (entry dir name) = None) as Hempty.
  { intros name. destruct (stat k (entry dir name)) eqn:E; auto. exfalso.
    destruct Hk as [_ [_ H3]]. specialize (H3 (entry dir name)). rewrite parent_entry in H3.
    rewrite Hnone in H3. assert (@None node = Some Dir) by (apply H3; rewrite E; discriminate). discriminate. }
  destruct (write_ops_ok F dir d k Hk HW HN ND) as [k' [R [Hk' [D [E [W Fr]]]]]].
  { intros p _. rewrite Hempty. discriminate. }
  destruct (sort_pubs (ds_data d) ND) as [pubs [P Srt]].
  assert (listing k' dir (map (fun p => (pd_name p, write_publisher_data F p)) pubs)) as HL.
  { split.
    - clear -Srt. induction Srt as [|x l S1 IH FA]; simpl; constructor; auto.
      rewrite Forall_forall in *. intros y I. apply in_map_iff in I. destruct I as [p [<- I]]. apply FA; auto.
    - intros name c. split.
      + intros I. apply in_map_iff in I. destruct I as [p [X I]]. inversion X; subst.
        apply E. apply (Permutation_in _ P); auto.
      + intros X. destruct (in_dec string_dec name (map pd_name (ds_data d))) as [I|NI].
        * apply in_map_iff in I. destruct I as [p [<- I]]. rewrite (E p I) in X. inversion X; subst.
          apply in_map_iff. exists p. split; auto. apply (Permutation_in _ (Permutation_sym P)); auto.
        * rewrite Fr in X; [rewrite Hempty in X; discriminate| |apply entry_not_on_the_way].
          intros p Hp Y. apply entry_inj in Y. apply NI. subst name. apply in_map; auto. }
  destruct Hd as [pubs0 [nm [un [F2 Mk]]]].
  pose proof (data_set_fields _ _ _ _ Mk) as [Ed [Em _]]. subst pubs0.
  destruct (Forall2_perm_r _ _ _ _ F2 (Permutation_sym P)) as [logs' [PL F2']].
  assert (Forall (Forall (fun r => prints_back F (snd r))) logs') as HF'.
  { rewrite Forall_forall in *. intros x I. apply HF. apply (Permutation_in _ (Permutation_sym PL)); auto. }
  destruct (read_written_all F dir pubs logs' F2' HF') as [l' [RM [I1 I2]]].
  assert (path_name dir = n) as Epn.
  { unfold path_name, dir, entry. cbn [snd]. apply last_last. }
  assert (mk_data_set l' (Some n) None =
    Ok {| ds_data := l'; ds_maximum_reach := Z.of_nat (count_distinct (total_audience l')); ds_name := n;
          ds_universe := 2 * Z.of_nat (count_distinct (total_audience l')) |}) as Mk'.
  { unfold mk_data_set. rewrite truthy_nonempty; [auto|]. destruct Hn; auto. }
  assert (Z.of_nat (count_distinct (total_audience l')) = ds_maximum_reach d) as MR.
  { rewrite Em. f_equal. rewrite (total_audience_same pubs l').
    - apply count_distinct_perm. unfold total_audience. apply Permutation_flat_map. auto.
    - clear -I2. induction I2; constructor; tauto. }
  exists k'. eexists. split; [exact R|]. split.
  { rewrite (read_data_set_listing F k' dirpath _ Hk' ltac:(rewrite Ep; exact D) ltac:(rewrite Ep; exact HL)).
    rewrite Ep, RM. cbn [bind]. rewrite Epn. exact Mk'. }
  split; auto. split.
  { exists pubs. auto. }
  split.
  { exists (map pd_data pubs), l', (Some n), None. auto. }
  split; auto. split; auto. split; [cbn [ds_universe]; lia|]. split; auto. split; auto.
  intros q Q1 Q2. apply Fr; auto. intros p Hp ->. apply Q1. exists [pd_name p]. auto.
Qed.

(** ** Equal ground truth *)

Lemma total_seen_by_name {B} (seen : list row -> B -> Z) (budget : string -> B) logs pubs :
  (forall log p b, is_publisher_of log p -> seen log b = seen (pd_data p) b) ->
  Forall2 is_publisher_of logs pubs ->
  total_seen seen logs (map (fun p => budget (pd_name p)) pubs) =
  Zsum (map (fun p => seen (pd_data p) (budget (pd_name p))) pubs).
Proof.
  intros Hs. induction 1 as [|log p logs pubs H _ IH]; simpl; auto. rewrite IH, (Hs log p) by auto. auto.
Qed.

Lemma read_back_logs dir d' logs' pubs :
  Forall2 (fun p p' => pd_data p' = pd_data p /\ pd_name p' = path_str (entry dir (pd_name p)))
          pubs (ds_data d') ->
  is_data_set_of logs' d' -> Forall2 (fun log p => exists p', is_publisher_of log p' /\ pd_data p' = pd_data p) logs' pubs.
Proof.
  intros H [pubs' [nm [un [F2 Mk]]]]. apply data_set_fields in Mk. destruct Mk as [E _].
  rewrite E in H. clear E. revert logs' F2. induction H as [|p p' l l' [H1 _] _ IH]; intros logs' F2.
  - inversion F2; subst. constructor.
  - inversion F2; subst. constructor; eauto.
Qed.

Lemma total_seen_same {B} (seen : list row -> B -> Z) (budget : string -> B) dir logs logs' d d' :
  (forall log p b, is_publisher_of log p -> seen log b = seen (pd_data p) b) ->
  is_data_set_of logs d -> is_data_set_of logs' d' -> forall pubs,
  Permutation pubs (ds_data d) ->
  Forall2 (fun p p' => pd_data p' = pd_data p /\ pd_name p' = path_str (entry dir (pd_name p)))
          pubs (ds_data d') ->
  total_seen seen logs (map (fun p => budget (pd_name p)) (ds_data d)) =
  total_seen seen logs' (map (fun p => budget (pd_name p)) pubs).
Proof.
  intros Hs Hd Hd' pubs P F2.
  pose proof (read_back_logs _ _ _ _ F2 Hd') as G.
  destruct Hd as [pubs0 [nm [un [F0 Mk]]]]. pose proof (data_set_fields _ _ _ _ Mk) as [E _]. subst pubs0.
  rewrite (total_seen_by_name seen budget logs (ds_data d)) by auto.
  transitivity (Zsum (map (fun p => seen (pd_data p) (budget (pd_name p))) pubs)).
  - apply Zsum_perm, Permutation_map. symmetry; auto.
  - clear -G Hs. induction G as [|log p l l' [p' [H1 H2]] _ IH]; simpl; auto.
    rewrite IH, (Hs _ _ _ H1), H2. auto.
Qed.

Lemma seen_spend_data u log p s : is_publisher_of log p ->
  seen_at_spend u log s = seen_at_spend u (pd_data p) s.
Proof.
  intros [rn [nm H]]. apply publisher_fields in H. destruct H as [-> _].
  apply seen_at_spend_perm. symmetry. apply sort_rows_perm.
Qed.

(** ** What reading depends on *)

Lemma listing_same k k' dir l : (forall q, within dir q -> stat k' q = stat k q) ->
  listing k dir l -> listing k' dir l.
Proof.
  intros H [H1 H2]. split; auto. intros name c. rewrite H2, H; [tauto|]. exists [name]. auto.
Qed.
Lemma read_depends F k k' dirpath : disk_ok k -> disk_ok k' ->
  (forall q, within (to_path dirpath) q -> stat k' q = stat k q) ->
  read_data_set F k' dirpath = read_data_set F k dirpath.
Proof.
  intros Hk Hk' H.
  assert (stat k' (to_path dirpath) = stat k (to_path dirpath)) as E.
  { apply H. exists []. rewrite app_nil_r. destruct (to_path dirpath); auto. }
  destruct (stat k (to_path dirpath)) as [[|c]|] eqn:E1.
  - destruct (listing_exists k (to_path dirpath) Hk E1) as [l HL].
    rewrite (read_data_set_listing F k dirpath l Hk E1 HL).
    rewrite (read_data_set_listing F k' dirpath l Hk' E (listing_same _ _ _ _ H HL)). auto.
  - unfold read_data_set, glob. rewrite E, E1. auto.
  - unfold read_data_set, glob. rewrite E, E1. auto.
Qed.

Lemma other_entry base n m q : n <> m -> within (entry base n) q ->
  ~ within (entry base m) q /\ ~ on_the_way (entry base m) q.
Proof.
  intros N [rest ->]. unfold entry. cbn [fst snd]. split.
  - intros [rest' E]. cbn [fst snd] in E. inversion E as [E1]. rewrite <- !app_assoc in E1.
    apply app_inv_head in E1. inversion E1. contradiction.
  - intros [_ [rest' E]]. cbn [fst snd] in E. inversion E as [E1]. rewrite <- !app_assoc in E1.
    apply app_inv_head in E1. inversion E1. congruence.
Qed.

(** ** The read cache *)

Lemma cache_find_drop c x y : x <> y -> cache_find (cache_drop c x) y = cache_find c y.
Proof.
  intros N. induction c as [|[z d] c IH]; simpl; auto.
  destruct (String.eqb x z) eqn:E.
  - apply String.eqb_eq in E. subst z. apply not_eq_sym, String.eqb_neq in N. rewrite N. auto.
  - simpl. rewrite IH. auto.
Qed.
Lemma cache_find_firstn n c x d : cache_find (firstn n c) x = Some d -> cache_find c x = Some d.
Proof.
  revert n. induction c as [|[z e] c IH]; intros n; destruct n; simpl; try discriminate.
  destruct (String.eqb x z); eauto.
Qed.

Lemma cached_read_find F k c x y d :
  cache_find (snd (cached_read F k c x)) y = Some d ->
  cache_find c y = Some d \/ (x = y /\ read_data_set F k x = Ok d).
Proof.
  unfold cached_read. destruct (cache_find c x) as [e|] eqn:E.
  - cbn [snd cache_find]. destruct (String.eqb y x) eqn:Q.
    + apply String.eqb_eq in Q. subst y. intros X; inversion X; subst. auto.
    + apply String.eqb_neq in Q. rewrite cache_find_drop by auto. auto.
  - destruct (read_data_set F k x) as [e|e] eqn:R; [|auto].
    cbn [snd]. intros X. apply cache_find_firstn in X. cbn [cache_find] in X.
    destruct (String.eqb y x) eqn:Q; auto. apply String.eqb_eq in Q. subst y. inversion X; subst. auto.
Qed.

Lemma after_snoc F k es e : after F k (es ++ [e]) = step F (after F k es) e.
Proof. unfold after. rewrite fold_left_app. auto. Qed.

Lemma cache_from_past F k es : forall x d, cache_find (st_cache (after F k es)) x = Some d ->
  exists es1 es2, es = es1 ++ Read x :: es2 /\ read_data_set F (st_disk (after F k es1)) x = Ok d.
Proof.
  induction es as [|e es IH] using rev_ind; intros x d H; [discriminate|].
  rewrite after_snoc in H. destruct e as [os|y]; cbn [step st_cache] in H.
  - destruct (IH _ _ H) as [es1 [es2 [-> R]]]. exists es1, (es2 ++ [Change os]).
    rewrite <- app_assoc. auto.
  - apply cached_read_find in H. destruct H as [H|[<- H]].
    + destruct (IH _ _ H) as [es1 [es2 [-> R]]]. exists es1, (es2 ++ [Read y]).
      rewrite <- app_assoc. auto.
    + exists es, []. auto.
Qed.

Lemma cache_drop_length c x d : cache_find c x = Some d -> S (length (cache_drop c x)) = length c.
Proof.
  induction c as [|[z e] c IH]; simpl; [discriminate|]. destruct (String.eqb x z); auto.
Qed.
Lemma cache_bounded F k es : (length (st_cache (after F k es)) <= 128)%nat.
Proof.
  induction es as [|e es IH] using rev_ind; [simpl; lia|].
  rewrite after_snoc. destruct e as [os|y]; cbn [step st_cache]; auto.
  unfold cached_read. destruct (cache_find (st_cache (after F k es)) y) eqn:E.
  - cbn [snd length]. rewrite (cache_drop_length _ _ _ E). auto.
  - destruct (read_data_set F (st_disk (after F k es)) y); cbn [snd]; auto.
    rewrite firstn_length. lia.
Qed.

(** ** Data designs *)

Lemma name_add_in l x y : In y (name_add l x) <-> y = x \/ In y l.
Proof.
  unfold name_add. destruct (existsb (String.eqb x) l) eqn:E.
  - apply existsb_exists in E. destruct E as [z [I E]]. apply String.eqb_eq in E. subst z.
    split; auto. intros [->|]; auto.
  - rewrite in_app_iff. simpl. intuition congruence.
Qed.
Lemma NoDup_snoc {A} (l : list A) x : NoDup l -> ~ In x l -> NoDup (l ++ [x]).
Proof.
  induction l as [|y l IH]; simpl; intros N I; [repeat constructor; auto|].
  inversion N; subst. constructor; [|apply IH; auto].
  rewrite in_app_iff. simpl. intros [H|[H|[]]]; [auto|]. apply I. left; auto.
Qed.
Lemma name_add_new l x : ~ In x l -> name_add l x = l ++ [x].
Proof.
  intros N. unfold name_add. destruct (existsb (String.eqb x) l) eqn:E; auto.
  apply existsb_exists in E. destruct E as [z [I E]]. apply String.eqb_eq in E. subst z. contradiction.
Qed.
Lemma name_add_nodup l x : NoDup l -> NoDup (name_add l x).
Proof.
  intros N. destruct (in_dec string_dec x l) as [I|NI].
  - unfold name_add. destruct (existsb (String.eqb x) l) eqn:E; auto.
    exfalso. assert (existsb (String.eqb x) l = true); [|congruence].
    apply existsb_exists. exists x. split; auto. apply String.eqb_refl.
  - rewrite name_add_new by auto. apply NoDup_snoc; auto.
Qed.
Lemma fold_name_add xs : forall l,
  NoDup l -> NoDup (fold_left name_add xs l) /\
  (forall y, In y (fold_left name_add xs l) <-> In y l \/ In y xs).
Proof.
  induction xs as [|x xs IH]; intros l N; simpl.
  - split; auto. intros y. tauto.
  - destruct (IH (name_add l x) (name_add_nodup _ _ N)) as [N' H]. split; auto.
    intros y. rewrite H, name_add_in. intuition congruence.
Qed.

Lemma open_design_ok st dirpath :
  disk_ok (st_disk st) -> no_file_on_the_way (st_disk st) (to_path dirpath) ->
  exists d st', mk_design st dirpath = (Ok d, st') /\ design_ok st' d /\
    de_dirpath d = dirpath /\ st_cache st' = st_cache st /\
    (forall q, ~ on_the_way (to_path dirpath) q -> stat (st_disk st') q = stat (st_disk st) q).
Proof.
  intros Hk HF. destruct (mkdir_ok _ _ Hk HF) as [k' [R [Hk' [D [W Fr]]]]].
  unfold mk_design. rewrite R. do 2 eexists. split; [reflexivity|].
  split; [|split; [auto|split; [auto|exact Fr]]].
  split; [exact Hk'|]. split; [exact D|].
  match goal with |- context [fold_left name_add ?xs []] =>
    destruct (fold_name_add xs [] (NoDup_nil _)) as [N H] end.
  split; [exact N|]. intros n. cbn [de_names de_dirpath st_disk]. rewrite H. split.
  - intros [[]|I]. apply in_map_iff in I. destruct I as [p [<- I]]. apply filter_In in I.
    destruct I as [I E]. apply (Permutation_in _ (sort_paths_perm _)) in I.
    apply glob_in in I; auto. destruct I as [m [-> _]]. unfold path_name, entry at 2.
    cbn [snd]. rewrite last_last. destruct (stat k' (entry (to_path dirpath) m)) as [[|]|]; auto; discriminate.
  - intros E. right. apply in_map_iff. exists (entry (to_path dirpath) n). split.
    + unfold path_name, entry. cbn [snd]. apply last_last.
    + apply filter_In. rewrite E. split; auto.
      apply (Permutation_in _ (Permutation_sym (sort_paths_perm _))).
      apply glob_in; auto. exists n. split; auto. rewrite E. discriminate.
Qed.

Lemma dir_no_file k dir : disk_ok k -> stat k dir = Some Dir -> no_file_on_the_way k dir.
Proof.
  intros Hk HD p c OW. apply on_the_way_prefix in OW. destruct OW as [n [Hn ->]].
  assert (forall j, (j <= length (snd dir))%nat -> stat k (prefix dir (length (snd dir) - j)) = Some Dir) as G.
  { induction j as [|j IH]; intros Hj.
    - rewrite Nat.sub_0_r, prefix_all. auto.
    - specialize (IH ltac:(lia)). replace (length (snd dir) - j)%nat with (S (length (snd dir) - S j)) in IH by lia.
      destruct Hk as [_ [_ H3]]. rewrite <- (parent_prefix dir (length (snd dir) - S j)) by lia.
      apply H3. rewrite IH. discriminate. }
  specialize (G (length (snd dir) - n)%nat ltac:(lia)).
  replace (length (snd dir) - (length (snd dir) - n))%nat with n in G by lia. rewrite G. discriminate.
Qed.

Lemma entry_no_file k dir name : disk_ok k -> stat k dir = Some Dir -> stat k (entry dir name) = None ->
  no_file_on_the_way k (entry dir name).
Proof.
  intros Hk HD HN p c OW.
  destruct (path_dec p (entry dir name)) as [->|Np]; [rewrite HN; discriminate|].
  apply (dir_no_file k dir Hk HD). apply on_the_way_prefix in OW. apply on_the_way_prefix.
  destruct OW as [n [Hn ->]]. unfold entry in Hn. cbn [snd] in Hn. rewrite app_length in Hn. simpl in Hn.
  exists n. destruct (Nat.eq_dec n (length (snd dir) + 1)) as [->|].
  - exfalso. apply Np. rewrite <- (prefix_all (entry dir name)) at 2. f_equal.
    unfold entry. cbn [snd]. rewrite app_length. auto.
  - split; [lia|]. unfold prefix, entry. cbn [fst snd]. rewrite firstn_app.
    replace (n - length (snd dir))%nat with O by lia. rewrite firstn_O, app_nil_r. auto.
Qed.

Lemma on_the_way_stat k dir q : disk_ok k -> stat k dir = Some Dir -> on_the_way dir q -> stat k q = Some Dir.
Proof.
  intros Hk HD OW. pose proof (dir_no_file k dir Hk HD) as NF.
  apply on_the_way_prefix in OW. destruct OW as [n [Hn ->]].
  assert (forall j, (j <= length (snd dir))%nat -> stat k (prefix dir (length (snd dir) - j)) = Some Dir) as G.
  { induction j as [|j IH]; intros Hj.
    - rewrite Nat.sub_0_r, prefix_all. auto.
    - specialize (IH ltac:(lia)). replace (length (snd dir) - j)%nat with (S (length (snd dir) - S j)) in IH by lia.
      destruct Hk as [_ [_ H3]]. rewrite <- (parent_prefix dir (length (snd dir) - S j)) by lia.
      apply H3. rewrite IH. discriminate. }
  specialize (G (length (snd dir) - n)%nat ltac:(lia)).
  replace (length (snd dir) - (length (snd dir) - n))%nat with n in G by lia. auto.
Qed.

Lemma on_the_way_entry dir name q : on_the_way (entry dir name) q -> q = entry dir name \/ on_the_way dir q.
Proof.
  intros OW. destruct (path_dec q (entry dir name)) as [->|Np]; auto. right.
  apply on_the_way_prefix in OW. apply on_the_way_prefix.
  destruct OW as [n [Hn ->]]. unfold entry in Hn. cbn [snd] in Hn. rewrite app_length in Hn. simpl in Hn.
  exists n. destruct (Nat.eq_dec n (length (snd dir) + 1)) as [->|].
  - exfalso. apply Np. rewrite <- (prefix_all (entry dir name)) at 2. f_equal.
    unfold entry. cbn [snd]. rewrite app_length. auto.
  - split; [lia|]. unfold prefix, entry. cbn [fst snd]. rewrite firstn_app.
    replace (n - length (snd dir))%nat with O by lia. rewrite firstn_O, app_nil_r. auto.
Qed.

(** Adding a data set with a new name. *)
Lemma add_new_ok F st d x :
  design_ok st d -> storable F x -> file_name (ds_name x) ->
  stat (st_disk st) (entry (to_path (de_dirpath d)) (ds_name x)) = None ->
  exists d' st' x', add F st d x = (Ok d', st') /\ design_ok st' d' /\
    de_dirpath d' = de_dirpath d /\ de_names d' = de_names d ++ [ds_name x] /\
    st_cache st' = st_cache st /\
    read_data_set F (st_disk st') (os_join (de_dirpath d) (ds_name x)) = Ok x' /\
    same_publishers (entry (to_path (de_dirpath d)) (ds_name x)) x x' /\
    (exists logs', is_data_set_of logs' x') /\
    ds_name x' = ds_name x /\ ds_maximum_reach x' = ds_maximum_reach x /\
    ds_universe x' = 2 * ds_maximum_reach x /\
    (forall q, ~ within (entry (to_path (de_dirpath d)) (ds_name x)) q ->
       stat (st_disk st') q = stat (st_disk st) q).
Proof.
  intros [Hk [HD [ND HNm]]] HS HN Hnone. set (base := to_path (de_dirpath d)) in *.
  pose proof (entry_no_file _ _ _ Hk HD Hnone) as NF.
  destruct (write_read F (st_disk st) base (ds_name x) x (os_join (de_dirpath d) (ds_name x)) Hk HS HN)
    as [k' [x' [R [RD [Hk' [SP [Lg [E1 [E2 [E3 [D [W Fr]]]]]]]]]]]]; auto.
  { apply to_path_os_join; auto. }
  assert (forall q, ~ within (entry base (ds_name x)) q -> stat k' q = stat (st_disk st) q) as Fr'.
  { intros q NW. destruct (stat k' q) eqn:X.
    - assert (on_the_way (entry base (ds_name x)) q \/ ~ on_the_way (entry base (ds_name x)) q) as [OW|NO].
      { destruct (in_dec path_dec q (map (prefix (entry base (ds_name x))) (seq 1 (length (snd (entry base (ds_name x))))))) as [I|NI].
        - left. apply on_the_way_prefix. apply in_map_iff in I. destruct I as [j [<- I]]. apply in_seq in I.
          exists j. split; [lia|auto].
        - right. intros OW. apply NI. apply on_the_way_prefix in OW. destruct OW as [j [Hj ->]].
          apply in_map_iff. exists j. split; auto. apply in_seq. lia. }
      + pose proof (W q OW) as WD. rewrite X in WD. inversion WD; subst.
        apply on_the_way_entry in OW. destruct OW as [->|OW].
        { exfalso. apply NW. exists []. rewrite app_nil_r. destruct (entry base (ds_name x)); auto. }
        symmetry. apply (on_the_way_stat _ base); auto.
      + rewrite <- X. apply Fr; auto.
    - rewrite <- X. apply Fr; auto. intros OW. rewrite (W q OW) in X. discriminate. }
  assert (~ In (ds_name x) (de_names d)) as NI.
  { intros I. apply HNm in I. rewrite Hnone in I. discriminate. }
  unfold add. fold base. rewrite (join_file_name base (ds_name x)) by auto.
  rewrite Hnone. unfold write_data_set, data_set_dir. fold base. rewrite join_file_name by auto. rewrite R.
  do 2 eexists. exists x'. split; [reflexivity|]. cbn [st_disk st_cache de_dirpath de_names].
  rewrite name_add_new by auto.
  split.
  - split; [exact Hk'|]. cbn [st_disk de_dirpath de_names]. fold base. split; [|split].
    + rewrite Fr'; auto. intros [rest E]. apply (f_equal (fun z => length (snd z))) in E.
      unfold entry in E. cbn [snd] in E. rewrite !app_length in E. simpl in E. lia.
    + apply NoDup_snoc; auto.
    + intros n. rewrite in_app_iff, HNm. split.
      * intros [H|[<-|[]]]; auto. destruct (string_dec n (ds_name x)) as [->|Nn]; auto.
        rewrite Fr'; auto. apply (proj1 (other_entry base n (ds_name x) (entry base n) Nn
          ltac:(exists []; rewrite app_nil_r; destruct (entry base n); auto))).
      * intros H. destruct (string_dec n (ds_name x)) as [->|Nn]; [right; left; auto|]. left.
        rewrite <- H. symmetry. apply Fr'.
        apply (proj1 (other_entry base n (ds_name x) (entry base n) Nn
          ltac:(exists []; rewrite app_nil_r; destruct (entry base n); auto))).
  - repeat (split; [solve [auto]|]). exact Fr'.
Qed.

(** Adding a data set whose name is taken. *)
Lemma add_taken F st d x : file_name (ds_name x) ->
  stat (st_disk st) (entry (to_path (de_dirpath d)) (ds_name x)) <> None ->
  add F st d x = (Err ValueError, st).
Proof.
  intros HN Hs. unfold add. rewrite join_file_name by auto.
  destruct (stat (st_disk st) (entry (to_path (de_dirpath d)) (ds_name x))); auto. contradiction.
Qed.

Lemma insert_string_perm x l : Permutation (insert_string x l) (x :: l).
Proof.
  induction l as [|y l IH]; simpl; auto. destruct (String.leb _ _); auto.
  rewrite IH. apply perm_swap.
Qed.
Lemma sorted_names_perm d : Permutation (sorted_names d) (de_names d).
Proof. unfold sorted_names. induction (de_names d) as [|x l IH]; simpl; auto. rewrite insert_string_perm, IH. auto. Qed.
Lemma insert_string_sorted x l :
  StronglySorted (fun x y => String.ltb x y = true) l -> ~ In x l ->
  StronglySorted (fun x y => String.ltb x y = true) (insert_string x l).
Proof.
  induction 1 as [|y l H IH F]; simpl; intros N; [repeat constructor|].
  destruct (String.leb x y) eqn:E.
  - assert (String.ltb x y = true) by (apply leb_ltb; auto).
    constructor; [constructor; auto|]. constructor; auto.
    eapply Forall_impl; [|exact F]. intros z Hz. eapply ltb_trans; eauto.
  - constructor; auto. rewrite Forall_forall in F |- *. intros z I.
    apply (Permutation_in _ (insert_string_perm x l)) in I. destruct I as [<-|I]; auto.
    apply leb_false; auto.
Qed.
Lemma sorted_names_sorted d : NoDup (de_names d) ->
  StronglySorted (fun x y => String.ltb x y = true) (sorted_names d).
Proof.
  unfold sorted_names. induction (de_names d) as [|x l IH]; simpl; intros N; [constructor|].
  inversion N as [|? ? N1 N2]; subst. apply insert_string_sorted; auto.
  intros I. apply N1. eapply Permutation_in; [|exact I].
  clear. induction l as [|y l IH]; simpl; auto. rewrite insert_string_perm, IH. auto.
Qed.

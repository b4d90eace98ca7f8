(** C12-C14: impression log files, data set directories, data designs. *)
From Coq Require Import String Ascii Permutation Sorted.
From Verif Require Import Prelude ModelReachPoint ModelData ModelFiles SpecData SpecFiles
  ReachPointLemmas DataLemmas DataLemmas2 DataLemmas3 FilesLemmas FilesLemmas2 FilesLemmas3.
Open Scope Z_scope.

(** A float format for the examples: fractions "n/d". It prints back every rational. *)
Definition frac_format : float_format :=
  {| show_float := fun x => str_of_int (Qnum x) ++ [slash] ++ str_of_int (Zpos (Qden x));
     read_float := fun s => match split_on slash s with
                            | [a; b] => n <- py_int a ;; d <- py_int b ;;
                                        match d with Zpos q => Ok (n # q) | _ => Err ValueError end
                            | _ => Err ValueError
                            end |}.

Lemma str_of_int_chars_slash z c : In c (str_of_int z) -> c <> slash.
Proof.
  unfold str_of_int.
  assert (numeral (digits (S (Z.to_nat (Z.log2 (Z.abs z)))) (Z.abs z) []) (Z.abs z)) as N.
  { apply digits_numeral; [|lia]. split; [lia|]. apply pow_bound; lia. }
  intros I. apply in_app_iff in I. destruct I as [I|I].
  - destruct (z <? 0); [|destruct I]. destruct I as [<-|[]]. discriminate.
  - destruct (numeral_chars _ _ _ N I) as [->|[v D]]; [discriminate|]. destruct D; discriminate.
Qed.

Lemma frac_prints_back x : prints_back frac_format x.
Proof.
  unfold prints_back, frac_format. cbn [show_float read_float].
  assert (forall c, In c (str_of_int (Qnum x) ++ [slash] ++ str_of_int (Zpos (Qden x))) -> c <> comma /\ c <> newline) as G.
  { intros c I. rewrite !in_app_iff in I. destruct I as [I|[[<-|[]]|I]].
    - apply str_of_int_chars in I; auto.
    - split; discriminate.
    - apply str_of_int_chars in I; auto. }
  split; [intros I; apply G in I; tauto|]. split; [intros I; apply G in I; tauto|].
  assert (split_on slash ((str_of_int (Qnum x) ++ [slash] ++ str_of_int (Zpos (Qden x))) ++ [newline])
    = [str_of_int (Qnum x); str_of_int (Zpos (Qden x)) ++ [newline]]) as ->.
  { apply split_on_two. split; [rewrite <- !app_assoc; auto|]. split.
    - intros I. apply str_of_int_chars_slash in I. auto.
    - intros I. apply in_app_iff in I. destruct I as [I|[I|[]]]; [|discriminate].
      apply str_of_int_chars_slash in I. auto. }
  assert (py_int (str_of_int (Qnum x)) = Ok (Qnum x)) as -> by apply py_int_spec, str_of_int_literal.
  cbn [bind].
  assert (py_int (str_of_int (Zpos (Qden x)) ++ [newline]) = Ok (Zpos (Qden x))) as ->.
  { apply py_int_spec. destruct (str_of_int_literal (Zpos (Qden x))) as [b [sg [body [a [n [E [H1 [H2 [H3 H4]]]]]]]]].
    exists b, sg, body, (a ++ [newline]), n. split; [rewrite E, <- !app_assoc; auto|].
    split; auto. split; [|auto]. apply Forall_app. split; auto. constructor; auto.
    right; right; left; auto. }
  cbn [bind]. destruct x; auto.
Qed.
Lemma frac_errors : float_errors frac_format.
Proof.
  intros s e. unfold frac_format. cbn [read_float].
  destruct (split_on slash s) as [|a [|b [|]]]; try (intros E; inversion E; auto; fail).
  unfold bind. destruct (py_int a) eqn:E1; [|intros E; inversion E; subst; eapply py_int_err; eauto].
  destruct (py_int b) as [[|q|q]|] eqn:E2; intros E; inversion E; subst; auto.
  eapply py_int_err; eauto.
Qed.

(** ** C12 *)

(** A publisher written to a file and read from it has the same impressions in the same order;
    so the counts by spend and by impressions, the largest spend and the reach are the same. *)
Theorem C12_round_trip : forall F log p name,
  is_publisher_of log p -> Forall (fun r => prints_back F (snd r)) log ->
  exists p', read_publisher_data F name (write_publisher_data F p) = Ok p' /\
    pd_data p' = pd_data p /\ pd_name p' = name /\
    pd_max_reach p' = pd_max_reach p /\ (pd_max_spend p' == pd_max_spend p)%Q /\
    max_impressions p' = max_impressions p /\
    (forall s, user_counts_by_spend p' s = user_counts_by_spend p s) /\
    (forall n, user_counts_by_impressions p' n = user_counts_by_impressions p n) /\
    (forall n, spend_by_impressions p' n = spend_by_impressions p n) /\
    (forall s, impressions_by_spend p' s = bought_at_spend log s).
Proof.
  intros F log p name [rn [nm H]] HF.
  pose proof (publisher_fields _ _ _ _ H) as [Hd [_ [Hm Hr]]].
  assert (Forall (fun r => prints_back F (snd r)) (pd_data p)) as HF'.
  { rewrite Hd. rewrite Forall_forall in *. intros x I. apply HF.
    apply (Permutation_in _ (sort_rows_perm log)). auto. }
  unfold read_publisher_data, write_publisher_data. rewrite written_log by auto.
  assert (exists p', mk_publisher name (pd_data p) None = Ok p') as [p' E].
  { unfold mk_publisher. destruct (pd_data p) as [|x r] eqn:Ep.
    - exfalso. apply (f_equal (@List.length row)) in Hd. rewrite sort_rows_length in Hd.
      destruct log; [discriminate Hm|discriminate Hd].
    - cbn [map py_maxQ bind]. eauto. }
  pose proof (publisher_fields _ _ _ _ E) as [Hd' [Hs' [Hm' Hr']]].
  exists p'. split; auto.
  assert (pd_data p' = pd_data p) as Ed by (rewrite Hd', Hd; apply sort_rows_idem).
  split; auto. split.
  { unfold mk_publisher, bind in E. destruct (py_maxQ _) in E; [|discriminate]. inversion E; auto. }
  split.
  { rewrite Hr', Hr, Hd. f_equal. apply count_distinct_perm, Permutation_map, sort_rows_perm. }
  split.
  { apply Qle_antisym.
    - eapply py_maxQ_ge; [exact Hm|].
      eapply Permutation_in; [apply Permutation_map, sort_rows_perm|]. rewrite <- Hd. eapply py_maxQ_in; eauto.
    - eapply py_maxQ_ge; [exact Hm'|]. rewrite Hd.
      eapply Permutation_in; [apply Permutation_map, Permutation_sym, sort_rows_perm|]. eapply py_maxQ_in; eauto. }
  split; [unfold max_impressions; rewrite Ed; auto|].
  split; [intros; unfold user_counts_by_spend; rewrite Ed; auto|].
  split; [intros; unfold user_counts_by_impressions; rewrite Ed; auto|].
  split; [intros; unfold spend_by_impressions, max_impressions; rewrite Ed; auto|].
  intros s. rewrite (impressions_by_spend_sorted (pd_data p) p' s).
  - unfold bought_at_spend. f_equal. apply Permutation_length, filter_perm. rewrite Hd. apply sort_rows_perm.
  - exists name, None. auto.
  - rewrite Hd. apply increasing_sorted, sort_rows_sorted.
Qed.
Print Assumptions C12_round_trip.

(** A file is accepted exactly if each of its lines says something, and then the rows are
    exactly what the lines say: none is dropped, added or altered. *)
Theorem C12_every_line_counts : forall F content ls rows, float_errors F -> lines_of content ls ->
  (read_log F content = Log rows <-> Forall2 (line_says F) ls rows).
Proof.
  intros F content ls rows HF HL. split.
  - intros E. destruct (read_rows_split F ls HF) as [[rows' H]|[pre [rows' [bad [post [El [H [M R]]]]]]]].
    + rewrite (read_log_ok F content ls rows' HL H) in E. inversion E; subst; auto.
    + rewrite (read_log_bad F content ls pre rows' bad post HL El H R) in E. discriminate.
  - apply read_log_ok; auto.
Qed.
Print Assumptions C12_every_line_counts.

(** What is returned for an accepted file: the rows sorted by price. *)
Theorem C12_accepted : forall F name content p, read_publisher_data F name content = Ok p ->
  exists rows, read_log F content = Log rows /\ is_publisher_of rows p /\
    Permutation (pd_data p) rows.
Proof.
  intros F name content p. unfold read_publisher_data.
  destruct (read_log F content) as [rows| |]; try discriminate. intros E.
  exists rows. split; auto. split; [exists name, None; auto|].
  apply publisher_fields in E. destruct E as [-> _]. apply sort_rows_perm.
Qed.
Print Assumptions C12_accepted.

(** A file is refused exactly if it has a malformed line, and the error tells the number
    (from 1) and the text of the first one. *)
Theorem C12_first_bad_line : forall F content ls number line,
  float_errors F -> lines_of content ls ->
  (read_log F content = BadLine number line <->
   exists before rest, ls = before ++ line :: rest /\ Z.of_nat (length before) + 1 = number /\
     malformed F line /\ Forall (fun l => ~ malformed F l) before).
Proof.
  intros F content ls number line HF HL. split.
  - intros E. destruct (read_rows_split F ls HF) as [[rows' H]|[pre [rows' [bad [post [El [H [M R]]]]]]]].
    + rewrite (read_log_ok F content ls rows' HL H) in E. discriminate.
    + rewrite (read_log_bad F content ls pre rows' bad post HL El H R) in E. inversion E; subst.
      exists pre, post. repeat (split; auto). clear -H. induction H; constructor; auto.
      intros X. eapply X; eauto.
  - intros [before [rest [El [En [M G]]]]].
    assert (exists rows, Forall2 (line_says F) before rows) as [rows H].
    { destruct (read_rows_split F before HF) as [H|[pre [rows' [bad [post [Eb [_ [Mb _]]]]]]]]; auto.
      exfalso. rewrite Forall_forall in G. apply (G bad); auto. rewrite Eb. apply in_app_iff. right; left; auto. }
    destruct (read_row F line) as [x|e] eqn:R.
    + exfalso. apply read_row_ok in R. eapply M; eauto.
    + destruct (read_row_err F line e HF R) as [-> _].
      rewrite (read_log_bad F content ls before rows line rest HL El H R). subst number. auto.
Qed.
Print Assumptions C12_first_bad_line.

(** In that case reading raises RuntimeError. *)
Theorem C12_bad_line_is_an_error : forall F name content number line,
  read_log F content = BadLine number line -> read_publisher_data F name content = Err RuntimeError.
Proof. intros F name content number line E. unfold read_publisher_data. rewrite E. auto. Qed.
Print Assumptions C12_bad_line_is_an_error.

(** Every file has lines, so one of the two cases applies to every file. *)
Theorem C12_complete : forall F content, float_errors F ->
  exists ls, lines_of content ls /\
    ((exists rows, read_log F content = Log rows) \/
     (exists number line, read_log F content = BadLine number line)).
Proof.
  intros F content HF. destruct (lines_of_exists content) as [ls HL]. exists ls. split; auto.
  destruct (read_rows_split F ls HF) as [[rows' H]|[pre [rows' [bad [post [El [H [M R]]]]]]]].
  - left. exists rows'. eapply read_log_ok; eauto.
  - right. do 2 eexists. eapply read_log_bad; eauto.
Qed.
Print Assumptions C12_complete.

Definition txt (s : string) : text := list_ascii_of_string s.
Definition nl : string := String newline EmptyString.
Definition ex_file_log : list row := [(-12, (3#100)%Q); (7, (1#100)%Q); (7, (2#50)%Q)].
Example C12_example : exists p, mk_publisher "a" ex_file_log None = Ok p /\
  write_publisher_data frac_format p = txt ("7,1/100" ++ nl ++ "-12,3/100" ++ nl ++ "7,2/50" ++ nl) /\
  Forall (fun r => prints_back frac_format (snd r)) ex_file_log.
Proof.
  eexists. split; [reflexivity|]. split; [reflexivity|]. repeat constructor; apply frac_prints_back.
Qed.
Example C12_example_bad : read_log frac_format (txt ("7,1/2" ++ nl ++ "8;1/2" ++ nl ++ "x" ++ nl))
  = BadLine 2 (txt ("8;1/2" ++ nl)) /\
  read_log frac_format (txt (" +1_0 ,1/2")) = Log [(10, (1#2)%Q)].
Proof. split; reflexivity. Qed.

(** ** C13 *)

(** Writing a data set to a new directory succeeds, and reading the directory then gives the
    same publishers' logs in the order of the file names. Nothing else on the disk changes,
    except that missing directories on the way are made. *)
Theorem C13_round_trip : forall F k parent_dir dataset_dir d n,
  disk_ok k -> storable F d -> stored_as dataset_dir d n -> file_name n ->
  let dir := entry (to_path parent_dir) n in
  no_file_on_the_way k dir -> stat k dir = None ->
  exists k' d', write_data_set F k parent_dir dataset_dir d = (Ok tt, k') /\
    read_data_set F k' (os_join parent_dir n) = Ok d' /\ disk_ok k' /\
    same_publishers dir d d' /\ ds_name d' = n /\
    ds_maximum_reach d' = ds_maximum_reach d /\ ds_universe d' = 2 * ds_maximum_reach d /\
    (forall q, on_the_way dir q -> stat k' q = Some Dir) /\
    (forall q, ~ within dir q -> ~ on_the_way dir q -> stat k' q = stat k q).
Proof.
  intros F k parent_dir dataset_dir d n Hk HS HSt Hn dir NF Hnone.
  destruct (write_read F k (to_path parent_dir) n d (os_join parent_dir n) Hk HS Hn)
    as [k' [d' [R [RD [Hk' [SP [_ [E1 [E2 [E3 [D [W Fr]]]]]]]]]]]]; auto.
  { apply to_path_os_join; auto. }
  exists k', d'. split.
  { unfold write_data_set, data_set_dir.
    assert (match dataset_dir with Some s => if truthy s then s else ds_name d | None => ds_name d end = n) as ->.
    { destruct dataset_dir as [s|]; simpl in HSt; [|auto].
      destruct HSt as [[Hs ->]|[-> ->]]; [rewrite truthy_nonempty; auto|auto]. }
    rewrite join_file_name by auto. exact R. }
  repeat (split; [solve [auto]|]). exact Fr.
Qed.
Print Assumptions C13_round_trip.

(** The ground truth is the same: for every budget given by publisher name, every frequency. *)
Theorem C13_same_reach_by_spend : forall dir logs logs' d d' (budget : string -> Q) m k,
  is_data_set_of logs d -> is_data_set_of logs' d' -> same_publishers dir d d' -> 1 <= k <= m ->
  exists names p p' r,
    Permutation names (map pd_name (ds_data d)) /\
    map pd_name (ds_data d') = map (fun n => path_str (entry dir n)) names /\
    reach_by_spend d (map (fun x => budget (pd_name x)) (ds_data d)) m = Ok p /\
    reach_by_spend d' (map budget names) m = Ok p' /\ reach p k = Ok r /\ reach p' k = Ok r.
Proof.
  intros dir logs logs' d d' budget m k Hd Hd' [pubs [P [_ F2]]] Hk.
  assert (length (ds_data d) = length logs) as L.
  { destruct Hd as [ps [? [? [G Mk]]]]. apply data_set_fields in Mk. destruct Mk as [-> _].
    symmetry. eapply Forall2_len; eauto. }
  assert (length pubs = length logs') as L'.
  { rewrite (Forall2_len _ _ _ F2). destruct Hd' as [ps [? [? [G Mk]]]]. apply data_set_fields in Mk.
    destruct Mk as [-> _]. symmetry. eapply Forall2_len; eauto. }
  destruct (reach_by_spend_card logs d (map (fun x => budget (pd_name x)) (ds_data d)) m k Hd) as [p [r [E1 [E2 C]]]];
    [rewrite map_length; auto|auto|].
  destruct (reach_by_spend_card logs' d' (map (fun x => budget (pd_name x)) pubs) m k Hd') as [p' [r' [E1' [E2' C']]]];
    [rewrite map_length; auto|auto|].
  assert (r = r') as <-.
  { eapply card_is_unique; [exact C|]. eapply card_is_ext; [|exact C']. intros u. cbv beta.
    rewrite (total_seen_same (seen_at_spend u) budget dir logs logs' d d') with (pubs := pubs); auto; [tauto|].
    intros. apply seen_spend_data; auto. }
  exists (map pd_name pubs), p, p', r. split; [apply Permutation_map; auto|]. split.
  { clear -F2. induction F2 as [|x y l l' [_ H] _ IH]; simpl; auto. rewrite H, IH. auto. }
  split; auto. rewrite map_map. auto.
Qed.
Print Assumptions C13_same_reach_by_spend.

(** The same when impressions are bought. *)
Theorem C13_same_reach_by_impressions : forall dir logs logs' d d' (budget : string -> Z) m k,
  is_data_set_of logs d -> is_data_set_of logs' d' -> same_publishers dir d d' -> 1 <= k <= m ->
  (forall n, 0 <= budget n) ->
  exists names p p' r,
    Permutation names (map pd_name (ds_data d)) /\
    map pd_name (ds_data d') = map (fun n => path_str (entry dir n)) names /\
    reach_by_impressions d (map (fun x => budget (pd_name x)) (ds_data d)) m = Ok p /\
    reach_by_impressions d' (map budget names) m = Ok p' /\ reach p k = Ok r /\ reach p' k = Ok r.
Proof.
  intros dir logs logs' d d' budget m k Hd Hd' [pubs [P [_ F2]]] Hk Hpos.
  assert (length (ds_data d) = length logs) as L.
  { destruct Hd as [ps [? [? [G Mk]]]]. apply data_set_fields in Mk. destruct Mk as [-> _].
    symmetry. eapply Forall2_len; eauto. }
  assert (length pubs = length logs') as L'.
  { rewrite (Forall2_len _ _ _ F2). destruct Hd' as [ps [? [? [G Mk]]]]. apply data_set_fields in Mk.
    destruct Mk as [-> _]. symmetry. eapply Forall2_len; eauto. }
  assert (forall l : list publisher_data, Forall (fun n => 0 <= n) (map (fun x => budget (pd_name x)) l)) as Pos.
  { intros l. apply Forall_forall. intros x I. apply in_map_iff in I. destruct I as [y [<- _]]. auto. }
  destruct (reach_by_impressions_card logs d (map (fun x => budget (pd_name x)) (ds_data d)) m k Hd) as [p [r [E1 [E2 C]]]];
    [rewrite map_length; auto|auto|auto|].
  destruct (reach_by_impressions_card logs' d' (map (fun x => budget (pd_name x)) pubs) m k Hd') as [p' [r' [E1' [E2' C']]]];
    [rewrite map_length; auto|auto|auto|].
  assert (r = r') as <-.
  { eapply card_is_unique; [exact C|]. eapply card_is_ext; [|exact C']. intros u. cbv beta.
    set (seen := fun log n => seen_at_impressions u log (Z.max 0 n)).
    assert (forall lg ps, total_seen (seen_at_impressions u) lg (map (fun x => budget (pd_name x)) ps) =
                          total_seen seen lg (map (fun x => budget (pd_name x)) ps)) as Q.
    { intros lg ps. revert lg. induction ps as [|x ps IH]; intros [|l lg]; simpl; auto.
      rewrite IH. unfold seen. rewrite Z.max_r by auto. auto. }
    rewrite !Q.
    rewrite (total_seen_same seen budget dir logs logs' d d') with (pubs := pubs); auto; [tauto|].
    intros log x b [rn [nm H]]. apply publisher_fields in H. destruct H as [-> _]. unfold seen.
    rewrite !seen_at_impressions_sorted by lia. rewrite sort_rows_idem. auto. }
  exists (map pd_name pubs), p, p', r. split; [apply Permutation_map; auto|]. split.
  { clear -F2. induction F2 as [|x y l l' [_ H] _ IH]; simpl; auto. rewrite H, IH. auto. }
  split; auto. rewrite map_map. auto.
Qed.
Print Assumptions C13_same_reach_by_impressions.

(** What reading any directory gives: one publisher for each file in it, in increasing order
    of names, with the rows of that file. *)
Theorem C13_read_any_directory : forall F k dirpath l d,
  disk_ok k -> stat k (to_path dirpath) = Some Dir -> listing k (to_path dirpath) l ->
  read_data_set F k dirpath = Ok d ->
  Forall2 (fun nc p => exists rows, read_log F (snd nc) = Log rows /\ is_publisher_of rows p /\
                         pd_name p = path_str (entry (to_path dirpath) (fst nc)))
          l (ds_data d) /\
  ds_universe d = 2 * ds_maximum_reach d.
Proof.
  intros F k dirpath l d Hk HD HL R. rewrite (read_data_set_listing F k dirpath l Hk HD HL) in R.
  destruct (mapM (fun x => read_file F (entry (to_path dirpath) (fst x)) (snd x)) l) as [pubs|] eqn:E; [|discriminate].
  cbn [bind] in R. apply data_set_fields in R. destruct R as [-> [_ R]]. split; auto.
  clear HL R. revert pubs E. induction l as [|[n c] l IH]; intros pubs E; cbn [mapM] in E.
  - inversion E; constructor.
  - cbn [fst snd] in E. destruct (read_file F (entry (to_path dirpath) n) c) as [p|] eqn:E1; [|discriminate].
    cbn [bind] in E. destruct (mapM _ l) as [ps|] eqn:E2; [|discriminate]. cbn [bind] in E. inversion E; subst.
    constructor; auto. cbn [fst snd]. clear -E1. unfold read_file in E1.
    destruct (read_publisher_data F "" c) as [q|] eqn:Q; [|discriminate]. inversion E1; subst.
    unfold read_publisher_data in Q. destruct (read_log F c) as [rows| |]; try discriminate.
    exists rows. split; auto. split; auto.
    unfold mk_publisher, bind in Q. destruct (py_maxQ (map snd rows)) eqn:M; [|discriminate]. inversion Q; subst.
    exists (path_str (entry (to_path dirpath) n)), None. unfold mk_publisher. rewrite M. reflexivity.
Qed.
Print Assumptions C13_read_any_directory.

(** A file with a malformed line, or without lines, makes the whole read fail. *)
Theorem C13_bad_file_fails : forall F k dirpath name c,
  disk_ok k -> stat k (to_path dirpath) = Some Dir -> float_errors F ->
  stat k (entry (to_path dirpath) name) = Some (File c) ->
  (forall rows, read_log F c = Log rows -> rows = []) ->
  read_data_set F k dirpath = Err RuntimeError.
Proof.
  intros F k dirpath name c Hk HD HF Hf Hbad.
  destruct (listing_exists k _ Hk HD) as [l HL].
  rewrite (read_data_set_listing F k dirpath l Hk HD HL).
  assert (In (name, c) l) as I by (apply HL; auto).
  assert (forall p t e, read_file F p t = Err e -> e = RuntimeError) as Errs.
  { intros p t e. unfold read_file, read_publisher_data.
    destruct (C12_complete F t HF) as [ls [_ [[rows ->]|[n0 [l0 ->]]]]].
    - unfold mk_publisher, bind. destruct rows as [|x r]; simpl; intros X; inversion X; auto.
    - simpl. intros X; inversion X; auto. }
  assert (forall p, read_file F p c = Err RuntimeError) as Bad.
  { intros p. unfold read_file, read_publisher_data.
    destruct (C12_complete F c HF) as [ls [_ [[rows E]|[n0 [l0 ->]]]]]; [|auto].
    rewrite E. rewrite (Hbad _ E). auto. }
  clear HL. induction l as [|[n t] l IH]; [destruct I|]. cbn [mapM fst snd].
  destruct (read_file F (entry (to_path dirpath) n) t) as [p|e] eqn:E.
  - destruct I as [I|I]; [inversion I; subst; rewrite Bad in E; discriminate|].
    specialize (IH I). cbn [bind]. destruct (mapM _ l) as [ps|e]; cbn [bind] in *; auto.
    unfold mk_data_set in IH. destruct (truthy (path_name (to_path dirpath))); discriminate IH.
  - cbn [bind]. rewrite (Errs _ _ _ E). auto.
Qed.
Print Assumptions C13_bad_file_fails.

(** Histories: whatever happens to the disk and whatever is read, a read returns what a fresh
    read would have returned now, or at the moment of an earlier read of the same directory
    by this interpreter. *)
Theorem C13_reads_are_past_reads : forall F k es x r c,
  cached_read F (st_disk (after F k es)) (st_cache (after F k es)) x = (r, c) ->
  r = read_data_set F (st_disk (after F k es)) x \/
  exists es1 es2, es = es1 ++ Read x :: es2 /\ r = read_data_set F (st_disk (after F k es1)) x.
Proof.
  intros F k es x r c. unfold cached_read.
  destruct (cache_find (st_cache (after F k es)) x) as [d|] eqn:E.
  - intros X; inversion X; subst. right.
    destruct (cache_from_past F k es x d E) as [es1 [es2 [-> R]]]. eauto.
  - destruct (read_data_set F (st_disk (after F k es)) x) eqn:R; intros X; inversion X; subst; auto.
Qed.
Print Assumptions C13_reads_are_past_reads.

(** So the read is current if the directory was not read before, or if its fresh reading was
    the same at every earlier read. *)
Theorem C13_current_if_not_changed_after_first_read : forall F k es x r c,
  (forall es1 es2, es = es1 ++ Read x :: es2 ->
     read_data_set F (st_disk (after F k es1)) x = read_data_set F (st_disk (after F k es)) x) ->
  cached_read F (st_disk (after F k es)) (st_cache (after F k es)) x = (r, c) ->
  r = read_data_set F (st_disk (after F k es)) x.
Proof.
  intros F k es x r c H E. destruct (C13_reads_are_past_reads F k es x r c E) as [->|[es1 [es2 [Ee ->]]]]; auto.
  eapply H; eauto.
Qed.
Print Assumptions C13_current_if_not_changed_after_first_read.

Theorem C13_cache_bounded : forall F k es, (length (st_cache (after F k es)) <= 128)%nat.
Proof. exact cache_bounded. Qed.
Print Assumptions C13_cache_bounded.

(** Examples: two publishers, and a second version of the data set. *)
Definition ex_pub (name : string) (log : list row) : publisher_data :=
  match mk_publisher "r" log (Some name) with Ok p => p
  | Err _ => {| pd_data := []; pd_spends := []; pd_max_spend := 0; pd_max_reach := 0; pd_name := "" |} end.
Definition ex_set (name : string) (pubs : list publisher_data) (u : option Z) : data_set :=
  match mk_data_set pubs (Some name) u with Ok d => d
  | Err _ => {| ds_data := []; ds_maximum_reach := 0; ds_name := ""; ds_universe := 0 |} end.
Definition ex_b : publisher_data := ex_pub "b" [(1, (1#100)%Q); (2, (2#100)%Q)].
Definition ex_a : publisher_data := ex_pub "a" [(2, (3#100)%Q)].
Definition ex_d : data_set := ex_set "x" [ex_b; ex_a] (Some 50).
Definition ex_d2 : data_set := ex_set "x" [ex_a] None.

Lemma empty_disk_ok : disk_ok [].
Proof.
  split; [constructor|]. split; [intros ? ? []|]. intros p H. apply stat_root.
  unfold stat in H. destruct (snd p) eqn:E; [unfold parent; cbn [snd]; rewrite E; auto|].
  simpl in H. contradiction.
Qed.
Lemma ex_d_storable : storable frac_format ex_d.
Proof.
  split; [|split].
  - exists [[(1, (1#100)%Q); (2, (2#100)%Q)]; [(2, (3#100)%Q)]]. split.
    + exists [ex_b; ex_a], (Some "x"%string), (Some 50). split; [|reflexivity].
      repeat constructor; [exists "r"%string, (Some "b"%string)|exists "r"%string, (Some "a"%string)]; reflexivity.
    + repeat constructor; apply frac_prints_back.
  - repeat constructor; try discriminate; simpl; intuition discriminate.
  - repeat constructor; simpl; intuition discriminate.
Qed.
Example C13_example : exists k' d',
  write_data_set frac_format [] "p/q" None ex_d = (Ok tt, k') /\
  read_data_set frac_format k' "p/q/x" = Ok d' /\
  map pd_name (ds_data d') = ["p/q/x/a"; "p/q/x/b"]%string /\
  storable frac_format ex_d /\ stored_as None ex_d "x" /\ file_name "x" /\
  no_file_on_the_way [] (entry (to_path "p/q") "x") /\ stat [] (entry (to_path "p/q") "x") = None.
Proof.
  do 2 eexists. split; [vm_compute; reflexivity|]. split; [vm_compute; reflexivity|].
  split; [reflexivity|]. split; [apply ex_d_storable|]. split; [reflexivity|].
  split; [repeat split; try discriminate; simpl; intuition discriminate|].
  split; [|reflexivity]. intros p c [H _]. unfold stat. destruct (snd p); [contradiction|discriminate].
Qed.

(** The universe size is not stored: reading back gives twice the reach instead. *)
Theorem C13_universe_lost_refuted : exists k' d',
  write_data_set frac_format [] "p" None ex_d = (Ok tt, k') /\
  read_data_set frac_format k' "p/x" = Ok d' /\
  ds_universe ex_d = 50 /\ ds_universe d' = 4.
Proof. do 2 eexists. repeat split; vm_compute; reflexivity. Qed.
Print Assumptions C13_universe_lost_refuted.

(** A read after a later write may return the old contents. *)
Theorem C13_stale_read_refuted : exists es x old new c,
  read_data_set frac_format (st_disk (after frac_format [] es)) x = Ok new /\
  cached_read frac_format (st_disk (after frac_format [] es)) (st_cache (after frac_format [] es)) x
    = (Ok old, c) /\
  length (ds_data new) = 2%nat /\ length (ds_data old) = 1%nat.
Proof.
  exists [Change (write_ops frac_format (to_path "x") ex_d2); Read "x"; Change (write_ops frac_format (to_path "x") ex_d)],
    "x"%string.
  do 3 eexists. split; [vm_compute; reflexivity|]. split; [vm_compute; reflexivity|]. split; reflexivity.
Qed.
Print Assumptions C13_stale_read_refuted.

(** Publishers with the same name overwrite each other: one of them is lost silently. *)
Theorem C13_duplicate_names_refuted : exists d k' d',
  length (ds_data d) = 2%nat /\
  write_data_set frac_format [] "p" None d = (Ok tt, k') /\
  read_data_set frac_format k' "p/y" = Ok d' /\ length (ds_data d') = 1%nat.
Proof.
  exists (ex_set "y" [ex_b; ex_pub "b" [(5, (1#2)%Q)]] None).
  do 2 eexists. split; [reflexivity|]. split; [vm_compute; reflexivity|].
  split; [vm_compute; reflexivity|]. reflexivity.
Qed.
Print Assumptions C13_duplicate_names_refuted.

(** A data set that was read cannot be written again: publishers' names are paths now. From an
    absolute directory, the copy has no files and the original files are written instead; from
    a relative one, writing fails. *)
Theorem C13_copy_refuted : exists k d' k' copy r k2 d2,
  write_data_set frac_format [] "/p" None ex_d = (Ok tt, k) /\
  read_data_set frac_format k "/p/x" = Ok d' /\
  write_data_set frac_format k "/backup" None d' = (Ok tt, k') /\
  read_data_set frac_format k' "/backup/x" = Ok copy /\ ds_data copy = [] /\
  write_data_set frac_format [] "p" None ex_d = (Ok tt, k2) /\
  read_data_set frac_format k2 "p/x" = Ok d2 /\
  fst (write_data_set frac_format k2 "backup" None d2) = Err r.
Proof.
  do 7 eexists.
  split; [vm_compute; reflexivity|]. split; [vm_compute; reflexivity|].
  split; [vm_compute; reflexivity|]. split; [vm_compute; reflexivity|].
  split; [reflexivity|]. split; [vm_compute; reflexivity|].
  split; vm_compute; reflexivity.
Qed.
Print Assumptions C13_copy_refuted.

(** ** C14 *)

Theorem C14_open : forall st dirpath,
  disk_ok (st_disk st) -> no_file_on_the_way (st_disk st) (to_path dirpath) ->
  exists d st', mk_design st dirpath = (Ok d, st') /\ design_ok st' d /\
    de_dirpath d = dirpath /\ st_cache st' = st_cache st /\
    (forall q, ~ on_the_way (to_path dirpath) q -> stat (st_disk st') q = stat (st_disk st) q).
Proof. exact open_design_ok. Qed.
Print Assumptions C14_open.

(** A name that is already there is refused, and nothing changes. *)
Theorem C14_add_existing : forall F st d x,
  design_ok st d -> file_name (ds_name x) -> In (ds_name x) (de_names d) ->
  add F st d x = (Err ValueError, st).
Proof.
  intros F st d x [_ [_ [_ H]]] HN I. apply add_taken; auto. apply H in I. rewrite I. discriminate.
Qed.
Print Assumptions C14_add_existing.

(** A new name is added: the names are the previous names plus the new one, the count grows
    by one, the stored data set reads back, and everything outside its directory (in
    particular the other data sets) is untouched. *)
Theorem C14_add_new : forall F st d x,
  design_ok st d -> storable F x -> file_name (ds_name x) -> ~ In (ds_name x) (de_names d) ->
  (forall c, stat (st_disk st) (entry (to_path (de_dirpath d)) (ds_name x)) <> Some (File c)) ->
  exists d' st' x', add F st d x = (Ok d', st') /\ design_ok st' d' /\
    de_dirpath d' = de_dirpath d /\
    (forall n, In n (sorted_names d') <-> n = ds_name x \/ In n (sorted_names d)) /\
    de_count d' = de_count d + 1 /\
    read_data_set F (st_disk st') (os_join (de_dirpath d) (ds_name x)) = Ok x' /\
    same_publishers (entry (to_path (de_dirpath d)) (ds_name x)) x x' /\
    ds_name x' = ds_name x /\ ds_maximum_reach x' = ds_maximum_reach x /\
    (forall n, file_name n -> n <> ds_name x ->
       read_data_set F (st_disk st') (os_join (de_dirpath d) n) =
       read_data_set F (st_disk st) (os_join (de_dirpath d) n)) /\
    (forall q, ~ within (entry (to_path (de_dirpath d)) (ds_name x)) q ->
       stat (st_disk st') q = stat (st_disk st) q).
Proof.
  intros F st d x Hok HS HN NI NF.
  assert (stat (st_disk st) (entry (to_path (de_dirpath d)) (ds_name x)) = None) as Hnone.
  { destruct (stat (st_disk st) (entry (to_path (de_dirpath d)) (ds_name x))) as [[|c]|] eqn:E; auto.
    - exfalso. apply NI. apply Hok; auto.
    - exfalso. eapply NF; eauto. }
  destruct (add_new_ok F st d x Hok HS HN Hnone)
    as [d' [st' [x' [E [Hok' [Ed [En [Ec [RD [SP [_ [E1 [E2 [E3 Fr]]]]]]]]]]]]]].
  exists d', st', x'. split; auto. split; auto. split; auto. split.
  { intros n. split; intros I.
    - apply (Permutation_in _ (sorted_names_perm d')) in I. rewrite En, in_app_iff in I.
      destruct I as [I|[<-|[]]]; auto. right. apply (Permutation_in _ (Permutation_sym (sorted_names_perm d))); auto.
    - apply (Permutation_in _ (Permutation_sym (sorted_names_perm d'))). rewrite En, in_app_iff.
      destruct I as [->|I]; [right; left; auto|]. left. apply (Permutation_in _ (sorted_names_perm d)); auto. }
  split. { unfold de_count. rewrite En, app_length. simpl length. lia. }
  repeat (split; [solve [auto]|]). split; [|exact Fr].
  intros n Hn Nn. apply read_depends.
  - apply Hok.
  - apply Hok'.
  - intros q W. apply Fr. rewrite to_path_os_join in W by auto.
    apply (proj1 (other_entry _ n (ds_name x) q Nn W)).
Qed.
Print Assumptions C14_add_new.

(** An addition that returns has written the whole data set: if any step of the write fails,
    the addition fails with it. *)
Theorem C14_add_reports : forall F st d x d' st',
  add F st d x = (Ok d', st') ->
  write_data_set F (st_disk st) (de_dirpath d) None x = (Ok tt, st_disk st') /\
  (forall n, In n (de_names d') <-> n = ds_name x \/ In n (de_names d)) /\
  st_cache st' = st_cache st.
Proof.
  intros F st d x d' st' H. unfold add in H.
  destruct (stat (st_disk st) _); [discriminate|].
  destruct (write_data_set F (st_disk st) (de_dirpath d) None x) as [[[]|e] k] eqn:E; [|discriminate].
  inversion H; subst. cbn [st_disk st_cache de_names]. split; [reflexivity|]. split; [|reflexivity].
  intros n. apply name_add_in.
Qed.
Print Assumptions C14_add_reports.

(** The names are listed once each, in increasing order, and counted. *)
Theorem C14_names_listed : forall st d, design_ok st d ->
  StronglySorted (fun x y => String.ltb x y = true) (sorted_names d) /\
  de_count d = Z.of_nat (length (sorted_names d)) /\
  (forall n, In n (sorted_names d) <-> stat (st_disk st) (entry (to_path (de_dirpath d)) n) = Some Dir).
Proof.
  intros st d [_ [_ [ND H]]]. split; [apply sorted_names_sorted; auto|]. split.
  - unfold de_count. rewrite (Permutation_length (sorted_names_perm d)). auto.
  - intros n. rewrite <- H. split; apply Permutation_in; [|symmetry]; apply sorted_names_perm.
Qed.
Print Assumptions C14_names_listed.

Lemma add_all_keeps F xs : forall st d st' d',
  design_ok st d -> Forall (storable F) xs -> Forall (fun x => file_name (ds_name x)) xs ->
  add_all F st d xs = (st', d') ->
  design_ok st' d' /\ de_dirpath d' = de_dirpath d /\ st_cache st' = st_cache st /\
  (forall n q, stat (st_disk st) (entry (to_path (de_dirpath d)) n) <> None ->
     within (entry (to_path (de_dirpath d)) n) q -> stat (st_disk st') q = stat (st_disk st) q) /\
  (forall n, (forall x, In x xs -> ds_name x <> n) ->
     stat (st_disk st') (entry (to_path (de_dirpath d)) n) = stat (st_disk st) (entry (to_path (de_dirpath d)) n)).
Proof.
  induction xs as [|x xs IH]; intros st d st' d' Hok HS HN E.
  - simpl in E. inversion E; subst. auto.
  - inversion HS; subst. inversion HN; subst. cbn [add_all] in E.
    destruct (stat (st_disk st) (entry (to_path (de_dirpath d)) (ds_name x))) eqn:St.
    + rewrite add_taken in E by (auto; rewrite St; discriminate).
      destruct (IH _ _ _ _ Hok ltac:(auto) ltac:(auto) E) as [A1 [A2 [A3 [A4 A5]]]].
      split; auto. split; auto. split; auto. split; auto.
      intros m Hm. apply A5. intros y Hy. apply Hm. right; auto.
    + destruct (add_new_ok F st d x Hok ltac:(auto) ltac:(auto) St)
        as [d1 [st1 [x' [E1 [Hok1 [Ed [En [Ec [_ [_ [_ [_ [_ [_ Fr]]]]]]]]]]]]]].
      rewrite E1 in E. destruct (IH _ _ _ _ Hok1 ltac:(auto) ltac:(auto) E) as [A1 [A2 [A3 [A4 A5]]]].
      rewrite Ed in *. split; auto. split; auto. split; [congruence|].
      assert (forall m q, m <> ds_name x -> within (entry (to_path (de_dirpath d)) m) q ->
                stat (st_disk st1) q = stat (st_disk st) q) as G.
      { intros m q Nm W. apply Fr. apply (proj1 (other_entry _ m (ds_name x) q Nm W)). }
      split.
      * intros m q Hm W. assert (m <> ds_name x) as Nm by (intros ->; contradiction).
        rewrite (A4 m q); [apply (G m); auto| |auto].
        rewrite (G m); auto. exists []. rewrite app_nil_r. destruct (entry _ m); auto.
      * intros m Hm. rewrite A5 by (intros y Hy; apply Hm; right; auto).
        apply (G m).
        -- intros ->. apply (Hm x); auto. left; auto.
        -- exists []. rewrite app_nil_r. destruct (entry _ m); auto.
Qed.

(** Histories of add: afterwards the names are those there before and those of the added data
    sets; each name shows the data set that was there before, or the first one added with it. *)
Theorem C14_history : forall F xs st d st' d',
  design_ok st d -> Forall (storable F) xs -> Forall (fun x => file_name (ds_name x)) xs ->
  (forall x c, In x xs -> stat (st_disk st) (entry (to_path (de_dirpath d)) (ds_name x)) <> Some (File c)) ->
  add_all F st d xs = (st', d') ->
  (forall n, In n (sorted_names d') <-> In n (sorted_names d) \/ In n (map ds_name xs)) /\
  (forall n, In n (sorted_names d) -> file_name n ->
     cache_find (st_cache st) (os_join (de_dirpath d) n) = None ->
     fst (by_name F st' d' n) = fst (by_name F st d n)) /\
  (forall before x rest, xs = before ++ x :: rest ->
     ~ In (ds_name x) (sorted_names d) -> ~ In (ds_name x) (map ds_name before) ->
     cache_find (st_cache st) (os_join (de_dirpath d) (ds_name x)) = None ->
     exists x', fst (by_name F st' d' (ds_name x)) = Ok x' /\
       same_publishers (entry (to_path (de_dirpath d)) (ds_name x)) x x' /\
       ds_name x' = ds_name x /\ ds_maximum_reach x' = ds_maximum_reach x).
Proof.
  assert (forall F st d n, cache_find (st_cache st) (os_join (de_dirpath d) n) = None ->
    fst (by_name F st d n) = read_data_set F (st_disk st) (os_join (de_dirpath d) n)) as Fresh.
  { intros F st d n H. unfold by_name, cached_read. rewrite H.
    destruct (read_data_set F (st_disk st) (os_join (de_dirpath d) n)); auto. }
  assert (forall n d, In n (sorted_names d) <-> In n (de_names d)) as SN.
  { intros n d. split; apply Permutation_in; [|symmetry]; apply sorted_names_perm. }
  intros F xs st d st' d' Hok HS HN NF E.
  destruct (add_all_keeps F xs st d st' d' Hok HS HN E) as [Hok' [Ed [Ec [Keep Other]]]].
  split; [|split].
  - intros n. rewrite !SN.
    clear Keep Ec. revert st d st' d' Hok NF E Hok' Ed Other.
    induction xs as [|x xs IH]; intros st d st' d' Hok NF E Hok' Ed Other.
    + simpl in E. inversion E; subst. simpl. tauto.
    + inversion HS; subst. inversion HN; subst. cbn [add_all] in E.
      destruct (stat (st_disk st) (entry (to_path (de_dirpath d)) (ds_name x))) as [nd|] eqn:St.
      * rewrite add_taken in E by (auto; rewrite St; discriminate).
        destruct (add_all_keeps F xs st d st' d' Hok ltac:(auto) ltac:(auto) E) as [_ [_ [_ [_ O]]]].
        rewrite (IH ltac:(auto) ltac:(auto) st d st' d' Hok ltac:(intros; apply NF; right; auto) E Hok' Ed O).
        simpl. assert (In (ds_name x) (de_names d)).
        { apply Hok. destruct nd; auto. exfalso. eapply NF; [left; eauto|eauto]. }
        intuition congruence.
      * destruct (add_new_ok F st d x Hok ltac:(auto) ltac:(auto) St)
          as [d1 [st1 [x' [E1 [Hok1 [Ed1 [En [Ec [_ [_ [_ [_ [_ [_ Fr]]]]]]]]]]]]]].
        rewrite E1 in E.
        destruct (add_all_keeps F xs st1 d1 st' d' Hok1 ltac:(auto) ltac:(auto) E) as [_ [_ [_ [_ O]]]].
        assert (forall y c, In y xs -> stat (st_disk st1) (entry (to_path (de_dirpath d1)) (ds_name y)) <> Some (File c)) as NF1.
        { intros y c Iy. rewrite Ed1. destruct (string_dec (ds_name y) (ds_name x)) as [Ey|Ny].
          - rewrite Ey. assert (stat (st_disk st1) (entry (to_path (de_dirpath d1)) (ds_name x)) = Some Dir) as X.
            { apply Hok1. rewrite En, in_app_iff. right; left; auto. }
            rewrite Ed1 in X. rewrite X. discriminate.
          - rewrite Fr; [apply NF; right; auto|].
            apply (proj1 (other_entry _ (ds_name y) (ds_name x) _ Ny
              ltac:(exists []; rewrite app_nil_r; destruct (entry (to_path (de_dirpath d)) (ds_name y)); auto))). }
        rewrite (IH ltac:(auto) ltac:(auto) st1 d1 st' d' Hok1 NF1 E Hok' ltac:(congruence) O).
        rewrite En, in_app_iff. simpl. intuition congruence.
  - intros n I Hn Hc. rewrite SN in I.
    rewrite (Fresh F st d n Hc). rewrite Fresh by (rewrite Ec, Ed; auto). rewrite Ed.
    apply read_depends; [apply Hok|apply Hok'|].
    intros q W. rewrite to_path_os_join in W by auto. apply (Keep n); auto.
    apply Hok in I. rewrite I. discriminate.
  - intros before x rest Exs NI NB Hc. rewrite SN in NI.
    rewrite Fresh by (rewrite Ec, Ed; auto). rewrite Ed. clear Fresh Hc.
    subst xs. apply Forall_app in HS, HN. destruct HS as [HS1 HS2], HN as [HN1 HN2].
    inversion HS2; subst. inversion HN2; subst.
    assert (exists st1 d1, add_all F st d before = (st1, d1) /\ add_all F st1 d1 (x :: rest) = (st', d')) as [st1 [d1 [E1 E2]]].
    { clear -E. revert st d E. induction before as [|y b IH]; intros st d E; [exists st, d; auto|].
      cbn [app add_all] in *. destruct (add F st d y) as [[|] ?]; eauto. }
    destruct (add_all_keeps F before st d st1 d1 Hok HS1 HN1 E1) as [Hok1 [Ed1 [Ec1 [Keep1 Other1]]]].
    assert (stat (st_disk st1) (entry (to_path (de_dirpath d1)) (ds_name x)) = None) as St.
    { rewrite Ed1, Other1.
      - destruct (stat (st_disk st) (entry (to_path (de_dirpath d)) (ds_name x))) as [[|c]|] eqn:S0; auto.
        + exfalso. apply NI. apply Hok; auto.
        + exfalso. eapply (NF x c); auto. apply in_app_iff. right; left; auto.
      - intros y Iy Ey. apply NB. rewrite <- Ey. apply in_map; auto. }
    cbn [add_all] in E2.
    destruct (add_new_ok F st1 d1 x Hok1 ltac:(auto) ltac:(auto) St)
      as [d2 [st2 [x' [E3 [Hok2 [Ed2 [En2 [Ec2 [RD [SP [_ [X1 [X2 [_ Fr2]]]]]]]]]]]]]].
    rewrite E3 in E2.
    destruct (add_all_keeps F rest st2 d2 st' d' Hok2 ltac:(auto) ltac:(auto) E2) as [_ [_ [_ [Keep2 _]]]].
    exists x'. rewrite Ed1 in *. rewrite Ed2 in *. split; [|auto].
    rewrite <- RD. apply read_depends; [apply Hok2|apply Hok'|].
    intros q W. rewrite to_path_os_join in W by auto. apply (Keep2 (ds_name x)); auto.
    assert (stat (st_disk st2) (entry (to_path (de_dirpath d2)) (ds_name x)) = Some Dir) as X.
    { apply Hok2. rewrite En2, in_app_iff. right; left; auto. }
    rewrite Ed2 in X. rewrite X. discriminate.
Qed.
Print Assumptions C14_history.

(** Opening the directory again, in another process say, shows the same names. *)
Theorem C14_reopen : forall st st2 d, design_ok st d -> st_disk st2 = st_disk st ->
  exists d' st', mk_design st2 (de_dirpath d) = (Ok d', st') /\ sorted_names d' = sorted_names d /\
    (forall q, stat (st_disk st') q = stat (st_disk st) q).
Proof.
  intros st st2 d Hok Ek. pose proof Hok as [Hk [HD [ND HN]]].
  assert (disk_ok (st_disk st2)) as Hk2 by (rewrite Ek; auto).
  assert (no_file_on_the_way (st_disk st2) (to_path (de_dirpath d))) as NF
    by (rewrite Ek; apply dir_no_file; auto).
  destruct (open_design_ok st2 (de_dirpath d) Hk2 NF) as [d' [st' [E [Hok' [Ed [Ec Fr]]]]]].
  exists d', st'. split; auto.
  assert (forall q, stat (st_disk st') q = stat (st_disk st) q) as Same.
  { intros q. rewrite <- Ek.
    destruct (in_dec path_dec q (map (prefix (to_path (de_dirpath d))) (seq 1 (length (snd (to_path (de_dirpath d))))))) as [I|NI].
    - assert (on_the_way (to_path (de_dirpath d)) q) as OW.
      { apply on_the_way_prefix. apply in_map_iff in I. destruct I as [j [<- I]]. apply in_seq in I.
        exists j. split; [lia|auto]. }
      rewrite (on_the_way_stat (st_disk st2) (to_path (de_dirpath d)) q); auto; [|rewrite Ek; auto].
      destruct Hok' as [Hk' [HD' _]]. rewrite Ed in HD'.
      apply (on_the_way_stat (st_disk st') (to_path (de_dirpath d)) q); auto.
    - apply Fr. intros OW. apply NI. apply on_the_way_prefix in OW. destruct OW as [j [Hj ->]].
      apply in_map_iff. exists j. split; auto. apply in_seq. lia. }
  split; auto.
  apply (sorted_unique (fun x y => String.ltb x y = true)).
  - intros x X. rewrite ltb_irrefl in X. discriminate.
  - apply ltb_trans.
  - apply sorted_names_sorted. apply Hok'.
  - apply sorted_names_sorted. auto.
  - intros n. destruct (C14_names_listed st' d' Hok') as [_ [_ L']].
    destruct (C14_names_listed st d Hok) as [_ [_ L]]. rewrite L, L', Ed, Same. tauto.
Qed.
Print Assumptions C14_reopen.

(** If the program stops anywhere inside add, all other data sets are intact. *)
Theorem C14_interrupted_add : forall F st d x os rest r k',
  design_ok st d -> Forall (fun p => file_name (pd_name p)) (ds_data x) -> file_name (ds_name x) ->
  write_ops F (entry (to_path (de_dirpath d)) (ds_name x)) x = os ++ rest ->
  run_ops (st_disk st) os = (r, k') ->
  disk_ok k' /\
  forall n, file_name n -> n <> ds_name x ->
    read_data_set F k' (os_join (de_dirpath d) n) = read_data_set F (st_disk st) (os_join (de_dirpath d) n).
Proof.
  intros F st d x os rest r k' [Hk [HD _]] HP HN Eo R.
  destruct (run_ops_frame os _ _ _ Hk R) as [Hk' Fr]. split; auto.
  intros n Hn Nn. apply read_depends; auto. intros q W. rewrite to_path_os_join in W by auto.
  destruct (other_entry _ n (ds_name x) q Nn W) as [W1 W2].
  apply Fr. intros o Io Eq.
  destruct (write_ops_paths F _ x o HP ltac:(rewrite Eo; apply in_app_iff; left; eauto)) as [A|A];
    rewrite Eq in A; auto.
Qed.
Print Assumptions C14_interrupted_add.

(** But the interrupted data set itself is not detected: after stopping half way, a design
    opened on the directory lists it, and it reads as a smaller data set without any error. *)
Theorem C14_interrupted_add_refuted : exists os rest k' d' st' x',
  write_ops frac_format (entry (to_path "dd") "x") ex_d = os ++ rest /\
  run_ops [] os = (Ok tt, k') /\
  mk_design {| st_disk := k'; st_cache := [] |} "dd" = (Ok d', st') /\
  sorted_names d' = ["x"%string] /\
  fst (by_name frac_format st' d' "x") = Ok x' /\
  length (ds_data x') = 1%nat /\ length (ds_data ex_d) = 2%nat /\
  ds_maximum_reach x' = 1 /\ ds_maximum_reach ex_d = 2.
Proof.
  exists (firstn 11 (write_ops frac_format (entry (to_path "dd") "x") ex_d)),
         (skipn 11 (write_ops frac_format (entry (to_path "dd") "x") ex_d)).
  do 4 eexists. split; [symmetry; apply firstn_skipn|].
  split; [vm_compute; reflexivity|]. split; [vm_compute; reflexivity|].
  split; [reflexivity|]. split; [vm_compute; reflexivity|]. repeat split.
Qed.
Print Assumptions C14_interrupted_add_refuted.

(** Looking up a name before adding it makes the later lookup return an empty data set. *)
Theorem C14_lookup_before_add_refuted : exists d st x0 st1 d' st2 y,
  mk_design {| st_disk := []; st_cache := [] |} "dd" = (Ok d, st) /\
  by_name frac_format st d "x" = (Ok x0, st1) /\
  add frac_format st1 d ex_d = (Ok d', st2) /\
  fst (by_name frac_format st2 d' "x") = Ok y /\ ds_data y = [] /\
  exists z, read_data_set frac_format (st_disk st2) "dd/x" = Ok z /\ length (ds_data z) = 2%nat.
Proof.
  do 7 eexists. split; [vm_compute; reflexivity|]. split; [vm_compute; reflexivity|].
  split; [vm_compute; reflexivity|]. split; [vm_compute; reflexivity|]. split; [reflexivity|].
  eexists. split; [vm_compute; reflexivity|]. reflexivity.
Qed.
Print Assumptions C14_lookup_before_add_refuted.

Example C14_example : exists d st d' st',
  mk_design {| st_disk := []; st_cache := [] |} "dd" = (Ok d, st) /\ design_ok st d /\
  add frac_format st d ex_d = (Ok d', st') /\ sorted_names d' = ["x"%string] /\
  add frac_format st' d' ex_d = (Err ValueError, st').
Proof.
  destruct (C14_open {| st_disk := []; st_cache := [] |} "dd" empty_disk_ok) as [d [st [E [H _]]]].
  { intros p c [Hp _]. unfold stat. simpl. destruct (snd p); [contradiction|discriminate]. }
  vm_compute in E. injection E as <- <-.
  do 4 eexists. split; [vm_compute; reflexivity|]. split; [exact H|].
  split; [vm_compute; reflexivity|]. split; vm_compute; reflexivity.
Qed.

(** From the parameters of data sets to the table: the whole way. *)
From Coq Require Import String Ascii Permutation Sorted.
From Verif Require Import Prelude ModelReachPoint ModelData DataLemmas ModelHalo ModelAggregator SpecAggregator ModelFiles SpecFiles
  FilesLemmas FilesLemmas2 FilesLemmas3 ModelDriver SpecDriver DriverLemmas DriverLemmas2 DriverLemmas3
  DriverLemmas4 DriverLemmas5 DriverLemmas6 DriverLemmas7 DriverLemmas8 ModelExecute SpecExecute ExecuteLemmas ExecuteLemmas2 ExecuteLemmas3 ExecuteLemmas4.
From Verif Require Import SpecTrial TrialLemmas ModelDesigns SpecDesigns ModelExperiments SpecExperiments ExperimentsLemmas ExperimentsLemmas2 ExperimentsLemmas4
  ExperimentsLemmas5 ExperimentsLemmas6.
From Verif Require Import SpecPipeline PipelineLemmas PipelineLemmas2.
From Verif Require PropsExperiments PropsTrial PropsDriver3.
Open Scope Z_scope.

Notation plays_trial := SpecExperiments.runs.
Notation driver_runs := SpecExecute.runs.

(** ** What a row says *)

Lemma row_says L x seed n i c t row p : plays_trial x n i c t -> row_of L seed t row ->
  n = set_name_of (lab_float L) p ->
  (forall d, dd_by_name (xd_data x) n = Ok d -> Z.of_nat (length (ds_data d)) = fp_num_publishers p) ->
  row_about L p c row.
Proof.
  intros [_ [A2 [A3 [_ [_ [d [Ed [P1 [_ [P3 [P4 [P5 [P6 _]]]]]]]]]]]]] [g E] -> Hn.
  destruct (compute_row L t seed g) as [r g'] eqn:Ec. cbn [fst] in E. subst r.
  assert (Ed' : dd_by_name (tr_design t) (tr_data_set t) = Ok d) by (rewrite A2, A3; exact Ed).
  destruct (compute_row_inv L _ _ _ _ _ Ec) as [d0 [h [fit [w [iv [E1 [E2 [E3 _]]]]]]]].
  assert (d0 = d) by congruence. subst d0.
  destruct (PropsTrial.C48_settings L t seed g row g' d Ec Ed') as [S1 [_ [S3 [S4 [S5 [S6 [S7 [S8 [_ [S10 [_ [S12 _]]]]]]]]]]]].
  destruct (PropsTrial.C48_privacy L t seed g row g' d h fit w Ec Ed' E2 E3) as [V1 [V2 _]].
  rewrite P1 in S4, S5, S6. rewrite P3 in S7, S8. rewrite P5 in S3. rewrite P6 in S12. rewrite A3 in S1. rewrite (Hn d Ed) in S10.
  assert (B1 : ep_epsilon (td_experiment (tr_descriptor t)) = fst (ch_budget c)) by (rewrite <- P4; reflexivity).
  assert (B2 : ep_delta (td_experiment (tr_descriptor t)) = snd (ch_budget c)) by (rewrite <- P4; reflexivity).
  rewrite B1 in V1. rewrite B2 in V2.
  unfold row_about. repeat (split; [assumption|]). assumption.
Qed.

(** ** Lists *)

Lemma name_back {A B} (f : A -> B) ps : forall names, (forall n, In n names -> In n (map f ps)) ->
  exists qs, map f qs = names /\ incl qs ps.
Proof.
  induction names as [|n names IH]; intros H; [exists []; split; [reflexivity|intros x []]|].
  destruct IH as [qs [E I]]; [intros m Hm; apply H; right; exact Hm|].
  pose proof (H n (or_introl eq_refl)) as Hn. apply in_map_iff in Hn. destruct Hn as [p [Ep Ip]].
  exists (p :: qs). split; [cbn [map]; congruence|]. intros x [<-|Hx]; auto.
Qed.

Lemma name_permutation {A B} (f : A -> B) ps qs : NoDup (map f ps) -> NoDup (map f qs) -> incl qs ps ->
  (forall p, In p ps -> In (f p) (map f qs)) -> Permutation qs ps.
Proof.
  intros N1 N2 I H. apply NoDup_Permutation; [eapply NoDup_map_inv; exact N2|eapply NoDup_map_inv; exact N1|].
  intros p. split; [apply I|]. intros Hp. pose proof (H p Hp) as X. apply in_map_iff in X. destruct X as [q [Eq Iq]].
  assert (q = p); [|subst; exact Iq].
  apply In_nth_error in Hp. pose proof (I q Iq) as Hq. apply In_nth_error in Hq. destruct Hp as [a Ha], Hq as [b Hb].
  assert (a = b).
  { destruct (Nat.eq_dec a b) as [X|X]; [exact X|exfalso]. apply (NoDup_map_nth f ps a b p q N1 Ha Hb X). symmetry. exact Eq. }
  congruence.
Qed.

Lemma sorted_map {A} (R : string -> string -> Prop) (f : A -> string) l :
  StronglySorted R (map f l) -> StronglySorted (fun a b => R (f a) (f b)) l.
Proof.
  induction l as [|a l IH]; intros H; [constructor|]. cbn [map] in H. inversion H as [|x1 x2 H1 H2]; subst.
  constructor; [apply IH; exact H1|]. rewrite Forall_forall in *. intros b Hb. apply H2. apply in_map. exact Hb.
Qed.

Lemma seq_combine_Forall2 {A B} (R : nat * A -> B -> Prop) (R' : A -> B -> Prop) cs : (forall i c b, R (i, c) b -> R' c b) ->
  forall s l, Forall2 R (combine (seq s (length cs)) cs) l -> Forall2 R' cs l.
Proof.
  intros H. induction cs as [|c cs IH]; intros s l F; cbn [length seq combine] in F; inversion F; subst; constructor; eauto.
Qed.

Lemma prod_Forall2 {A B C} (f : A -> string) (R : string * (nat * B) -> C -> Prop) (R' : A * B -> C -> Prop) (cs : list B) :
  (forall a i c y, R (f a, (i, c)) y -> R' (a, c) y) ->
  forall qs l, Forall2 R (list_prod (map f qs) (combine (seq 0 (length cs)) cs)) l -> Forall2 R' (list_prod qs cs) l.
Proof.
  intros H. induction qs as [|q qs IH]; intros l F; cbn [map list_prod] in *; [inversion F; constructor|].
  apply Forall2_app_inv_l in F. destruct F as [l1 [l2 [F1 [F2 ->]]]]. apply Forall2_app; [|apply IH; exact F2].
  clear F2 IH. revert l1 F1. generalize 0%nat. induction cs as [|c cs IH]; intros s l1 F; cbn [length seq combine map] in *;
    inversion F; subst; constructor; eauto.
Qed.

Lemma Forall2_through {A B C} (P : A -> B -> Prop) (Q : B -> C -> Prop) l : forall m r, Forall2 P l m -> Forall2 Q m r ->
  Forall2 (fun a c => exists b, P a b /\ Q b c) l r.
Proof.
  induction l as [|a l IH]; intros m r H1 H2; inversion H1; subst; inversion H2; subst; constructor; eauto.
Qed.

(** ** The whole way *)

Section Whole.
Variables (L : lab) (dr : driver L) (pow : Q -> Z -> Q) (fs fs' : store) (de : design)
  (ps : list set_parameters) (cs : list choice) (g : generators L) (few : nat -> Prop).
Notation F := (lab_float L).
Notation k := (st_disk fs).
Notation k' := (st_disk fs').
Hypothesis Fl : filled F pow fs (dr_data_design L dr) ps fs' de.
Hypothesis K : disk_ok k.
Hypothesis Fresh : forall n, stat k (entry (data_dir L dr) n) = None.
Hypothesis W : Forall (writable F) ps.
Hypothesis ND : NoDup (map (set_name_of F) ps).
Hypothesis Colon : forall p, In p ps -> ~ In ":"%char (chars (set_name_of F p)).
Hypothesis Pf : tells_floats_apart F.
Hypothesis Ef : dr_fetch L dr (dr_seed L dr) = Ok (numbered cs, g).
Hypothesis Few : forall p, In p ps -> few (Z.to_nat (fp_num_publishers p)).
Hypothesis Always : always_rows L few cs.
Hypothesis New : new_workspace L dr k.
Hypothesis Md5 : forall s, file_name (lab_md5 L s).
Hypothesis ne : ps <> [].
Hypothesis ce : cs <> [].

Lemma made_ok : disk_ok k' /\ stat k' (data_dir L dr) = Some Dir /\
  (forall n, stat k' (entry (data_dir L dr) n) = Some Dir <-> In n (map (set_name_of F) ps)) /\
  (forall q, ~ within (data_dir L dr) q -> ~ on_the_way (data_dir L dr) q -> stat k' q = stat k q).
Proof.
  destruct Fl as [O [Ed [_ [Nm [_ [_ Fr]]]]]]. pose proof O as [K' [D' [_ Ns]]]. rewrite Ed in D', Ns.
  split; [exact K'|]. split; [exact D'|]. split.
  - intros n. rewrite <- (Ns n).
    assert (In n (de_names de) <-> In n (sorted_names de)) as ->.
    { split; apply Permutation_in; [symmetry|]; apply sorted_names_perm. }
    rewrite Nm. fold (data_dir L dr). rewrite (Fresh n). split; [intros [X|X]; [discriminate|exact X]|auto].
  - intros q N1 N2. apply Fr; [exact N2|]. intros p Ip X. apply N1. eapply within_trans; [apply within_entry|exact X].
Qed.

Lemma whole_trials : exists ts x de', driver_runs L dr k' ts g /\ one_trial_each L x cs ts /\
  xd_descriptors x = numbered cs /\ xd_dir x = dr_intermediates L dr /\ generate_trials L x = Ok ts /\
  good_data (xd_data x) (fun d => few (publisher_count d)) /\
  dd_names (xd_data x) = sorted_names de' /\ data_sets L dr k' (sorted_names de') /\
  (forall p d, In p ps -> dd_by_name (xd_data x) (set_name_of F p) = Ok d ->
     Z.of_nat (length (ds_data d)) = fp_num_publishers p).
Proof.
  destruct made_ok as [K' [D' [Nm Same]]].
  assert (HD : has_data L dr k').
  { split; [exact K'|]. split; [exact D'|]. intros n Hn. apply Nm in Hn. apply in_map_iff in Hn. destruct Hn as [p [<- Ip]].
    rewrite Forall_forall in W. apply (W p Ip). }
  destruct (opened_design {| st_disk := k'; st_cache := [] |} (dr_data_design L dr) K' D') as [de' [E [O P]]].
  pose proof (design_names L dr k' de' O P) as DS.
  set (x := {| xd_dir := dr_intermediates L dr; xd_data := opened L {| st_disk := k'; st_cache := [] |} de';
     xd_descriptors := numbered cs; xd_seed := dr_seed L dr; xd_analysis := dr_analysis L dr |}).
  assert (Rd : forall p, In p ps -> exists d, dd_by_name (xd_data x) (set_name_of F p) = Ok d /\
     Z.of_nat (length (ds_data d)) = fp_num_publishers p).
  { intros p Ip. destruct Fl as [_ [_ [_ [_ [Ho _]]]]]. destruct (Ho p Ip) as [d [d' [A [R [[pubs [Pm [_ F2]]] _]]]]].
    exists d'. split; [cbn [x xd_data opened dd_by_name]; rewrite first_read, P; exact R|].
    rewrite <- (proj1 (proj2 A)). apply Forall2_len in F2. apply Permutation_length in Pm. congruence. }
  assert (Gd : good_data (xd_data x) (fun d => few (publisher_count d))).
  { split.
    - cbn [x xd_data opened dd_names]. destruct O as [_ [_ [N _]]].
      eapply Permutation_NoDup; [symmetry; apply sorted_names_perm|exact N].
    - intros n Hn. cbn [x xd_data opened dd_names] in Hn. apply (proj2 DS) in Hn. apply Nm in Hn.
      apply in_map_iff in Hn. destruct Hn as [p [<- Ip]]. rewrite Forall_forall in W.
      split; [apply (W p Ip)|]. split; [apply Colon; exact Ip|]. destruct (Rd p Ip) as [d [E1 E2]].
      exists d. split; [exact E1|]. pose proof (Few p Ip) as Fp. rewrite <- E2, Nat2Z.id in Fp. exact Fp. }
  destruct (PropsExperiments.C52_trials L x cs eq_refl Pf) as [ts [Et [Ot _]]].
  { destruct Gd as [G1 G2]. split; [exact G1|]. intros n Hn. destruct (G2 n Hn) as [G3 [G4 [d [G5 G6]]]].
    split; [exact G3|]. split; [exact G4|]. exists d. split; [exact G5|]. destruct (Always d G6) as [A1 A2].
    split; [|exact A2]. intros c Hc. apply (A1 c Hc). }
  exists ts, x, de'. split; [|split; [exact Ot|]].
  - split; [exact HD|]. unfold prepare. rewrite E. cbn [fst bind]. rewrite Ef. cbn [bind]. fold x. rewrite Et. reflexivity.
  - split; [reflexivity|]. split; [reflexivity|]. split; [exact Et|]. split; [exact Gd|]. split; [reflexivity|]. split; [exact DS|].
    intros p d Ip Ed. destruct (Rd p Ip) as [d' [E1 E2]]. congruence.
Qed.

Lemma whole_run xs ca c r d' :
  (forall ts, driver_runs L dr k' ts g -> markers_differ L ts /\ way_ok L (dr_seed L dr) ts xs ca c) ->
  In (output_path L dr) xs -> Forall (free_place L dr k) xs ->
  execute L dr ca c k' = Some (r, d') ->
  exists tb ts, r = Ok tb /\ table_for L ps cs ca tb /\ driver_runs L dr k' ts g /\ length tb = (length ps * length cs)%nat /\
    one_row_each L (dr_seed L dr) ts ca tb d' /\ written L dr ts xs tb k' d'.
Proof.
  intros Hts Ox Px Ex. destruct made_ok as [K' [D' [Nm Same]]].
  destruct whole_trials as [ts [x [de' [R [O [Hd [Hx [Et [Gd [En [DS Cnt]]]]]]]]]]].
  destruct (Hts ts R) as [Mk Way]. pose proof New as [Wn [Wp _]].
  assert (Nn : dd_names (xd_data x) <> []).
  { rewrite En. intros X. destruct ps as [|p l]; [contradiction|].
    assert (Y : In (set_name_of F p) (sorted_names de')) by (apply DS, Nm; left; reflexivity). rewrite X in Y. destruct Y. }
  assert (Clear : forall d c, few (publisher_count d) -> In c cs -> clear_choice F d c).
  { intros d c0 Hp Hc. apply (proj1 (Always d Hp) c0 Hc). }
  assert (Gc : good_data (xd_data x) (fun d => forall c, In c cs -> clear_choice F d c)).
  { destruct Gd as [G1 G2]. split; [exact G1|]. intros n Hn. destruct (G2 n Hn) as [G3 [G4 [d [G5 G6]]]].
    split; [exact G3|]. split; [exact G4|]. exists d. split; [exact G5|]. intros c0. apply Clear. exact G6. }
  assert (Gp : good_place L x) by (split; [rewrite Hx; exact Wn|]; split; [rewrite Hx; exact Wp|exact Md5]).
  assert (Sep : separate L ts) by (eapply place_separate; eauto).
  assert (Sane : sane_trials L ts).
  { apply (PropsDriver3.C38_generated_sane L x ts); [eapply clear_dictionaries; eassumption| |exact Et|exact Mk].
    destruct Gp as [P1 [P2 P3]]. split; [exact P1|]. split; [exact P2|]. split; [intros n Hn; apply Gc; exact Hn|].
    split; [|split; [exact Pf|exact P3]]. intros desc I. rewrite Hd in I. apply numbered_in in I. destruct I as [i [c0 [Hc ->]]].
    destruct (dd_names (xd_data x)) as [|n0 l0] eqn:En0; [contradiction|].
    destruct Gc as [_ G]. rewrite En0 in G. destruct (G n0 (or_introl eq_refl)) as [_ [_ [d [_ C]]]].
    apply (clear_plain _ d). apply C. eapply nth_error_In. exact Hc. }
  assert (Here : forall t, In t ts -> exists n f m,
    out_of L t = entry (entry (work_dir L dr) n) f /\ pending_path L t = entry (marker_dir L dr) m).
  { intros t Ht. destruct Sane as [dir [S1 [_ [S3 _]]]]. destruct (S3 t Ht) as [T1 [T2 [T3 T4]]].
    destruct (choice_of_trial L x cs ts t O Ht) as [n [i [c0 [_ [_ [Td _]]]]]]. rewrite Hx in Td.
    exists (tr_data_set t), (str (show_descriptor F (tr_descriptor t) ++ chars ".csv")), (lab_md5 L (results_path F t)).
    split.
    - rewrite out_path by (try assumption; rewrite T1; intros X; apply S1; rewrite X; reflexivity). rewrite Td. unfold entry, work_dir.
      cbn [fst snd]. rewrite <- app_assoc. reflexivity.
    - rewrite pend_path by assumption. rewrite Td. unfold marker_dir, entry, parent, work_dir. cbn [fst snd].
      rewrite <- app_assoc. reflexivity. }
  destruct (new_usable L dr k k' K K' D' Same New ts Here) as [U Z].
  assert (No : forall t, In t ts -> no_result L t k').
  { intros t Ht tb [t0 [E _]]. rewrite (Z t Ht) in E. discriminate. }
  assert (Rw : forall t, In t ts -> exists row, fst (compute_row L t (dr_seed L dr) g) = Ok row).
  { intros t Ht. destruct (choice_of_trial L x cs ts t O Ht) as [n [i [c0 [Hn [Hc Rt]]]]].
    destruct Gd as [_ G]. destruct (G n Hn) as [_ [_ [d [Ed Pc]]]].
    destruct (proj1 (Always d Pc) c0 (nth_error_In _ _ Hc)) as [_ [Sk [l [Sl Ll]]]].
    apply (runs_row L (dr_seed L dr) g x n i c0 t d Rt Ed Sk). exists l. split; [exact Sl|]. lia. }
  assert (Places : Forall (place_for L dr ts k') xs).
  { rewrite Forall_forall in *. intros y Hy. apply (free_place_for L dr k k' K' D' Same ts Here). apply Px. exact Hy. }
  assert (Nt : ts <> []).
  { intros ->. destruct cs as [|c0 l0]; [contradiction|]. destruct (dd_names (xd_data x)) as [|n0 r0] eqn:En0; [contradiction|].
    destruct (trial_of_choice L x (c0 :: l0) [] n0 0%nat c0 O) as [t [[] _]]; [rewrite En0; left; reflexivity|reflexivity]. }
  destruct (fresh_execute L dr k' ts g xs R Nt Sep U No Rw Ox Places ca c r d' Way Ex) as [tb [Er [Each Wr]]].
  exists tb, ts. split; [exact Er|].
  assert (T : table_for L ps cs ca tb).
  { destruct Each as [rows [F2 [Pm Or]]].
    destruct (name_back (set_name_of F) ps (sorted_names de')) as [qs [Eq Iq]].
    { intros n Hn. apply Nm, DS. exact Hn. }
    exists qs, rows. split; [|split; [|split; [|split; assumption]]].
    - apply (name_permutation (set_name_of F)); [exact ND| |exact Iq|].
      + rewrite Eq, <- En. apply Gd.
      + intros p Ip. rewrite Eq. apply DS, Nm, in_map. exact Ip.
    - apply (sorted_map (fun a b => String.ltb a b = true)). rewrite Eq. apply DS.
    - destruct O as [O _]. pose proof (Forall2_through _ _ _ _ _ O F2) as Th. rewrite En, <- Eq in Th.
      assert (Q : forall q, In q qs -> In q ps) by exact Iq.
      assert (Gen : forall qs' l, (forall q, In q qs' -> In q ps) ->
        Forall2 (fun nic row => exists t, plays_trial x (fst nic) (fst (snd nic)) (snd (snd nic)) t /\
           (row_of L (dr_seed L dr) t row /\ stat d' (out_of L t) = Some (File (lab_print L [row]))))
          (list_prod (map (set_name_of F) qs') (combine (seq 0 (length cs)) cs)) l ->
        Forall2 (fun pc row => row_about L (fst pc) (snd pc) row) (list_prod qs' cs) l).
      { intros qs' l Iqs Fa.
        assert (Fb : Forall2 (fun pc row => In (fst pc) ps -> row_about L (fst pc) (snd pc) row) (list_prod qs' cs) l).
        { eapply (prod_Forall2 (set_name_of F)); [|exact Fa]. cbn [fst snd]. intros a i c0 y [t [Rt [Ry _]]] Ia.
          eapply row_says; [exact Rt|exact Ry|reflexivity|]. intros d. apply Cnt. exact Ia. }
        eapply Forall2_impl_In; [|exact Fb]. intros [a c0] y Ha _ H. apply H. cbn [fst]. apply in_prod_iff in Ha. apply Iqs, Ha. }
      apply Gen; [exact Q|exact Th]. }
  split; [exact T|]. split; [exact R|]. split; [|split; assumption].
  destruct T as [qs [rows [P1 [_ [P3 [P4 _]]]]]]. apply Permutation_length in P1, P4. apply Forall2_len in P3.
  rewrite prod_length in P3. congruence.
Qed.
End Whole.

(** The named strategies do not look at where the impressions are kept. *)
From Coq Require Import String Ascii.
From Verif Require Import Prelude ModelReachPoint ModelData ModelFiles ModelHalo ModelStrategy ModelDriver ModelCloud SpecCloud
  ModelSurface ModelRestricted ModelStack SpecSame SameLemmas.
Open Scope Z_scope.

Section Halo.
Variable X : externals.
Variable h : halo.

Lemma mlift_ok {A B} (a : A) (f : A -> M X B) w : mbind (mlift (Ok a)) f w = f a w.
Proof. reflexivity. Qed.
Lemma mbind_ext {A B} (m m' : M X A) (f f' : A -> M X B) w : (forall w, m' w = m w) -> (forall a w, f' a w = f a w) ->
  mbind m' f' w = mbind m f w.
Proof. intros E F. unfold mbind. rewrite E. destruct (m w) as [[a|e] w']; [apply F|reflexivity]. Qed.
Lemma mfold_ext {A B} (f f' : A -> B -> M X A) l : (forall a b w, f' a b w = f a b w) -> forall a w, mfold f' l a w = mfold f l a w.
Proof. intros E. induction l as [|b l IH]; intros a w; [reflexivity|]. cbn [mfold]. apply mbind_ext; [apply E|exact IH]. Qed.
Lemma mmap_ext {A B} (f f' : A -> M X B) l : (forall a w, f' a w = f a w) -> forall w, mmap f' l w = mmap f l w.
Proof.
  intros E. induction l as [|a l IH]; intros w; [reflexivity|]. cbn [mmap]. apply mbind_ext; [apply E|]. intros b w1.
  apply mbind_ext; [exact IH|reflexivity].
Qed.

Lemma moved_impressions d spends : ds_impressions_by_spend (moved d) spends = ds_impressions_by_spend d spends.
Proof.
  unfold ds_impressions_by_spend. cbn [moved ds_data]. rewrite map_length. generalize 0%nat. generalize (ds_data d).
  induction l as [|p l IH]; intros s; [reflexivity|]. cbn [length seq map combine mapM fst snd].
  destruct (py_index spends (Z.of_nat s)); cbn [bind]; [|reflexivity]. rewrite IH. reflexivity.
Qed.
Lemma moved_merge spends sk i w : merge_step (X := X) (moved_halo h) spends sk i w = merge_step h spends sk i w.
Proof.
  unfold merge_step, mbind, mlift. cbn [moved_halo h_publishers h_ll]. rewrite moved_py_index.
  destruct (py_index (h_publishers h) i) as [p|e]; cbn [bind]; [|reflexivity]. destruct (py_index spends i); reflexivity.
Qed.
Lemma moved_simulated spends b split m w : simulated_reach_by_spend (X := X) (moved_halo h) spends b split m w = simulated_reach_by_spend h spends b split m w.
Proof.
  unfold simulated_reach_by_spend. cbn [moved_halo h_publishers h_ll]. rewrite moved_py_index.
  destruct (py_index (h_publishers h) 0) as [p0|e]; cbn [bind]; [|reflexivity].
  rewrite !mlift_ok.
  apply mbind_ext; [reflexivity|]. intros s0 w1. cbv zeta. apply mbind_ext; [reflexivity|]. intros seed1 w2. apply mbind_ext; [reflexivity|]. intros seed2 w3.
  apply mbind_ext; [intros w4; apply mfold_ext; intros; apply moved_merge|]. intros sk w4.
  apply mbind_ext; [reflexivity|]. intros est w5. apply mbind_ext; [reflexivity|]. intros u w6.
  cbn [moved_halo h_data_set]. rewrite moved_impressions. reflexivity.
Qed.
End Halo.

(** ** The strategies *)

Lemma moved_request X h b p i (w : world X) : single_pub_request (moved_halo h) b p i w = single_pub_request h b p i w.
Proof.
  unfold single_pub_request. rewrite moved_campaign. apply mbind_ext; [reflexivity|]. intros s w1. apply mbind_ext; [reflexivity|]. intros v w2.
  apply mbind_ext; [intros w3; apply moved_simulated|]. reflexivity.
Qed.
Lemma moved_all_but_one X h b i (w : world X) : all_but_one_request (moved_halo h) b i w = all_but_one_request h b i w.
Proof. unfold all_but_one_request. rewrite moved_campaign. apply mbind_ext; [reflexivity|]. intros v w2. apply moved_simulated. Qed.
Lemma moved_pubs h : h_publisher_count (moved_halo h) = h_publisher_count h.
Proof. unfold h_publisher_count. cbn [moved_halo h_publishers]. apply map_length. Qed.


(** ** Models *)

(** The curves of the ground truth keep the data set. *)
Definition moved_curve (c : curve_model) : curve_model :=
  match c with
  | GroundTruth g => GroundTruth {| gt_data_set := moved (gt_data_set g); gt_index := gt_index g; gt_max_reach := gt_max_reach g |}
  | _ => c
  end.
Definition moved_surface (s : surface_model) : surface_model :=
  {| su_publishers := su_publishers s; su_a := su_a s; su_curves := map moved_curve (su_curves s); su_data := su_data s |}.
Definition moved_model (m : fitted_model) : fitted_model :=
  match m with
  | OneCurve c => OneCurve (moved_curve c)
  | Surface s => Surface (moved_surface s)
  end.

Lemma moved_rbi pubs : forall imps spends counts, rbi_loop (map moved_publisher pubs) imps spends counts = rbi_loop pubs imps spends counts.
Proof.
  induction pubs as [|p pubs IH]; intros imps spends counts; [reflexivity|]. cbn [map rbi_loop].
  destruct imps as [|n imps]; [reflexivity|].
  change (spend_by_impressions (moved_publisher p) n) with (spend_by_impressions p n).
  change (user_counts_by_impressions (moved_publisher p) n) with (user_counts_by_impressions p n).
  destruct (spend_by_impressions p n); cbn [bind]; [apply IH|reflexivity].
Qed.
Lemma moved_reach_impressions d imps m : reach_by_impressions (moved d) imps m = reach_by_impressions d imps m.
Proof. unfold reach_by_impressions. rewrite moved_count. cbn [moved ds_data ds_universe]. rewrite moved_rbi. reflexivity. Qed.

Section Models.
Variable T : tools.

Lemma moved_curve_by_spend c spends k : curve_by_spend T (moved_curve c) spends k = curve_by_spend T c spends k.
Proof.
  destruct c; try reflexivity. cbn [moved_curve curve_by_spend]. unfold gt_by_spend. cbn [gt_data_set gt_index]. rewrite moved_count.
  destruct spends as [|s [|]]; try reflexivity. destruct (py_set _ _ _); cbn [bind]; [|reflexivity]. rewrite moved_reach. reflexivity.
Qed.
Lemma moved_curve_reach c x : c_reach (surface_curve T (moved_curve c)) x = c_reach (surface_curve T c) x.
Proof.
  destruct c; try reflexivity. cbn [moved_curve surface_curve c_reach]. destruct (integer_of x) as [z|]; cbn [bind]; [|reflexivity].
  unfold gt_by_impressions. cbn [gt_data_set gt_index]. rewrite moved_count. destruct (py_set _ _ _); cbn [bind]; [|reflexivity].
  rewrite moved_reach_impressions. reflexivity.
Qed.
Lemma moved_curve_max c : c_max_reach (surface_curve T (moved_curve c)) = c_max_reach (surface_curve T c).
Proof. destruct c; reflexivity. Qed.
Lemma moved_curve_impressions c x : c_impressions_for_spend (surface_curve T (moved_curve c)) x = c_impressions_for_spend (surface_curve T c) x.
Proof.
  destruct c; try reflexivity. cbn [moved_curve surface_curve c_impressions_for_spend]. unfold gt_impressions_for_spend. cbn [gt_data_set gt_index moved ds_data].
  rewrite moved_py_index. destruct (py_index _ _); reflexivity.
Qed.

Notation sc := (map (surface_curve T)).
Lemma moved_vector cs : forall imps, get_reach_vector (sc (map moved_curve cs)) imps = get_reach_vector (sc cs) imps.
Proof.
  unfold get_reach_vector. induction cs as [|c cs IH]; intros imps; [reflexivity|]. destruct imps as [|x imps]; [reflexivity|].
  cbn [map combine mapM fst snd]. rewrite moved_curve_reach, IH. reflexivity.
Qed.
Lemma moved_for_spend cs : forall spends,
  mapM (fun p => c_impressions_for_spend (fst p) (snd p)) (combine (sc (map moved_curve cs)) spends) =
  mapM (fun p => c_impressions_for_spend (fst p) (snd p)) (combine (sc cs) spends).
Proof.
  induction cs as [|c cs IH]; intros spends; [reflexivity|]. destruct spends as [|x spends]; [reflexivity|].
  cbn [map combine mapM fst snd]. rewrite moved_curve_impressions, IH. reflexivity.
Qed.
Lemma moved_max cs : map c_max_reach (sc (map moved_curve cs)) = map c_max_reach (sc cs).
Proof. rewrite !map_map. apply map_ext. intros c. apply moved_curve_max. Qed.
Lemma moved_term cs rv i j : pair_term (sc (map moved_curve cs)) rv i j = pair_term (sc cs) rv i j.
Proof.
  unfold pair_term. rewrite !moved_py_index. destruct (py_index rv i); cbn [bind]; [|reflexivity]. destruct (py_index rv j); cbn [bind]; [|reflexivity].
  destruct (py_index cs i); cbn [bind]; [|reflexivity]. destruct (py_index cs j); cbn [bind]; [|reflexivity].
  rewrite !moved_curve_max. reflexivity.
Qed.
Lemma moved_pairwise_answer p a cs imps k : pairwise_by_impressions p a (sc (map moved_curve cs)) imps k = pairwise_by_impressions p a (sc cs) imps k.
Proof.
  unfold pairwise_by_impressions. rewrite moved_vector. destruct (get_reach_vector _ _) as [rv|]; cbn [bind]; [|reflexivity].
  erewrite mapM_ext; [reflexivity|]. intros [i j]. rewrite moved_term. reflexivity.
Qed.
Lemma moved_answer m spends k : answer T (moved_model m) spends k = answer T m spends k.
Proof.
  destruct m as [c|s]; cbn [moved_model answer]; [apply moved_curve_by_spend|].
  unfold surface_answer, surface_by_spend. cbn [moved_surface su_curves su_publishers su_a]. cbv zeta. rewrite moved_for_spend.
  destruct (mapM _ _); cbn [bind]; [|reflexivity]. apply moved_pairwise_answer.
Qed.
Lemma moved_training m : training_reaches (moved_model m) = training_reaches m.
Proof. destruct m as [[]|]; reflexivity. Qed.

Lemma moved_z p cs pt : z_and_alpha p (sc (map moved_curve cs)) pt = z_and_alpha p (sc cs) pt.
Proof.
  unfold z_and_alpha. rewrite moved_vector. destruct (get_reach_vector _ _) as [rv|]; cbn [bind]; [|reflexivity].
  erewrite mapM_ext; [reflexivity|]. intros [i j]. rewrite moved_term. reflexivity.
Qed.
Lemma moved_pairwise_fit solver cs points : pairwise_fit solver (sc (map moved_curve cs)) points = pairwise_fit solver (sc cs) points.
Proof.
  unfold pairwise_fit. destruct (surface_ctor points) as [p|]; cbn [bind]; [|reflexivity].
  rewrite (mapM_ext _ (z_and_alpha p (sc cs))) by (intros; apply moved_z). reflexivity.
Qed.
Lemma moved_setup p cs points : setup_predictor_response p (sc (map moved_curve cs)) points = setup_predictor_response p (sc cs) points.
Proof.
  unfold setup_predictor_response. cbv zeta. apply mapM_ext. intros pt. rewrite moved_vector, moved_max. reflexivity.
Qed.
Lemma moved_drawn {G} (R : np_random G) sampler cs points g :
  drawn_fit R sampler (sc (map moved_curve cs)) points g = drawn_fit R sampler (sc cs) points g.
Proof.
  unfold drawn_fit. destruct (surface_ctor points) as [p|]; cbn [bind]; [|reflexivity]. rewrite moved_setup. reflexivity.
Qed.
Lemma moved_fit_surface name kw g cs points : fit_surface T name kw g (map moved_curve cs) points =
  ('(s, g') <- fit_surface T name kw g cs points ;; Ok (moved_surface s, g')).
Proof.
  unfold fit_surface. destruct (String.eqb name "pairwise_union").
  - destruct (accepts [] kw); cbn [bind]; [|reflexivity]. destruct (surface_ctor points); cbn [bind]; [|reflexivity].
    rewrite moved_pairwise_fit. destruct (pairwise_fit _ _ _); reflexivity.
  - destruct (String.eqb name "restricted_pairwise_union").
    + destruct (accepts [] kw); cbn [bind]; [|reflexivity]. destruct (surface_ctor points); cbn [bind]; [|reflexivity].
      rewrite moved_drawn. destruct (drawn_fit _ _ _ _ _) as [[aa g']|]; reflexivity.
    + destruct (String.eqb name "none"); reflexivity.
Qed.
Lemma fitted_stays name kw p c : fit_named T name kw p = Ok c -> moved_curve c = c.
Proof.
  unfold fit_named. intros H. repeat match type of H with
    | (if ?b then _ else _) = _ => destruct b
    | bind ?x _ = _ => destruct x; cbn [bind] in H
    | (let _ := _ in _) = _ => cbv zeta in H
    | match ?x with _ => _ end = _ => destruct x
    end; try discriminate H; injection H as <-; reflexivity.
Qed.

(** ** The strategies *)

Definition moved_result {X A} (F : A -> A) (r : result A * world X) : result A * world X :=
  ((x <- fst r ;; Ok (F x)), snd r).
Lemma mbind_moved {X A B} (m m' : M X A) (f f' : A -> M X B) F w : (forall w, m' w = m w) -> (forall a w, f' a w = moved_result F (f a w)) ->
  mbind m' f' w = moved_result F (mbind m f w).
Proof. intros H1 H2. unfold mbind. rewrite H1. destruct (m w) as [[a|e] w1]; [apply H2|reflexivity]. Qed.

Definition moved_fit (r : curve_model + surface_model * tl_state T) : curve_model + surface_model * tl_state T :=
  match r with inl c => inl (moved_curve c) | inr (s, g) => inr (moved_surface s, g) end.

Lemma mapM_moved {A B} (F : B -> B) (f f' : A -> result B) l : (forall a, f' a = (x <- f a ;; Ok (F x))) ->
  mapM f' l = (xs <- mapM f l ;; Ok (map F xs)).
Proof.
  intros H. induction l as [|a l IH]; [reflexivity|]. cbn [mapM]. rewrite H, IH. destruct (f a); cbn [bind]; [|reflexivity].
  destruct (mapM f l); reflexivity.
Qed.
Lemma moved_curves sd g ug h singles l :
  mapM (fun i => if ug : bool then ground_truth_curve_of (named_modelers T sd g) (h_data_set (moved_halo h)) i
                 else rp <- py_index singles i ;; fit_single (named_modelers T sd g) rp) l =
  (cs <- mapM (fun i => if ug then ground_truth_curve_of (named_modelers T sd g) (h_data_set h) i
                 else rp <- py_index singles i ;; fit_single (named_modelers T sd g) rp) l ;; Ok (map moved_curve cs)).
Proof.
  apply mapM_moved. intros i. destruct ug.
  - cbn [named_modelers ground_truth_curve_of moved_halo h_data_set]. unfold mk_ground_truth. cbn [moved ds_data]. rewrite moved_py_index.
    destruct (py_index (ds_data _) i); reflexivity.
  - destruct (py_index singles i) as [rp|]; cbn [bind]; [|reflexivity]. cbn [named_modelers fit_single].
    destruct (fit_named T _ _ _) as [c|] eqn:E; cbn [bind]; [|reflexivity]. rewrite (fitted_stays _ _ _ _ E). reflexivity.
Qed.

Lemma moved_m3 X sd g ug h b (w : world X) :
  m3_fit (named_modelers T sd g) ug (moved_halo h) b w = moved_result moved_fit (m3_fit (named_modelers T sd g) ug h b w).
Proof.
  unfold m3_fit. cbv zeta. rewrite moved_pubs, moved_campaign. apply mbind_moved; [intros w1; apply moved_simulated|]. intros total w1.
  apply mbind_moved; [intros w2; apply mmap_ext; intros; apply moved_request|]. intros singles w2.
  apply mbind_moved.
  { intros w3. destruct (2 <? h_publisher_count h)%nat; [|reflexivity]. apply mmap_ext. intros. apply moved_all_but_one. }
  intros abo w3. rewrite moved_curves. unfold mbind at 1 3, mlift at 1 4.
  match goal with |- context [mapM ?f ?l] => destruct (mapM f l) as [cs|e] end; cbn [bind]; [|reflexivity].
  destruct (Nat.eqb _ 1).
  - cbn [named_modelers curve] in *. rewrite moved_py_index. unfold mbind, mlift. destruct (py_index cs 0); reflexivity.
  - unfold mbind, mlift. cbn [named_modelers fit_multi]. rewrite moved_fit_surface. destruct (fit_surface _ _ _ _ _ _) as [[s g']|]; reflexivity.
Qed.
Lemma moved_single X S h b (w : world X) : single_publisher_fit S (moved_halo h) b w = single_publisher_fit S h b w.
Proof.
  unfold single_publisher_fit. rewrite moved_pubs. destruct (negb _); [reflexivity|]. rewrite moved_campaign.
  apply mbind_ext; [intros w1; apply moved_simulated|reflexivity].
Qed.
Lemma single_stays X sd g h b (w : world X) c w' :
  single_publisher_fit (named_modelers T sd g) h b w = (Ok c, w') -> moved_curve c = c.
Proof.
  unfold single_publisher_fit. destruct (negb _); [discriminate|]. unfold mbind. destruct (simulated_reach_by_spend _ _ _ _ _ _) as [[p|e] w1]; [|discriminate].
  unfold mlift. cbn [named_modelers fit_single]. intros H. apply (f_equal fst) in H. exact (fitted_stays _ _ _ _ H).
Qed.
Lemma moved_strategy X sd h b g (w : world X) :
  fit_strategy T sd (moved_halo h) b g w =
  (('(m, g') <- fst (fit_strategy T sd h b g w) ;; Ok (moved_model m, g')), snd (fit_strategy T sd h b g w)).
Proof.
  unfold fit_strategy. destruct (String.eqb (sd_strategy sd) "m3strategy").
  - unfold mbind. rewrite moved_m3. destruct (m3_fit _ _ h b w) as [[[c|[s g']]|e] w']; reflexivity.
  - destruct (String.eqb (sd_strategy sd) "single_publisher"); [|reflexivity]. unfold mbind. rewrite moved_single.
    destruct (single_publisher_fit _ h b w) as [[c|e] w'] eqn:E; [|reflexivity]. cbn. rewrite (single_stays _ _ _ _ _ _ _ _ E). reflexivity.
Qed.
End Models.

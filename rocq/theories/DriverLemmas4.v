(** The files of the trials of one experiment are separate. *)
From Coq Require Import String Ascii.
From Verif Require Import Prelude ModelAggregator ModelFiles SpecFiles FilesLemmas FilesLemmas2 FilesLemmas3
  ModelDriver SpecDriver DriverLemmas2.
Open Scope Z_scope.

Definition kept (s : text) : list string :=
  filter (fun x => negb (String.eqb x "" || String.eqb x ".")) (map string_of_list_ascii (split_on slash s)).

Lemma kept_app a b : kept (a ++ slash :: b) = kept a ++ kept b.
Proof. unfold kept. rewrite split_on_app_gen, map_app, filter_app. reflexivity. Qed.

Lemma kept_name n : file_name n -> kept (list_ascii_of_string n) = [n].
Proof. apply keep_file_name. Qed.

Lemma to_path_kept s : snd (to_path s) = kept (list_ascii_of_string s).
Proof. reflexivity. Qed.

Definition component (n : string) : Prop := n <> ""%string /\ n <> "."%string /\ ~ In slash (list_ascii_of_string n).

Lemma split_on_no_sep c s : forall x, In x (split_on c s) -> ~ In c x.
Proof.
  induction s as [|y s IH]; cbn [split_on]; intros x H.
  - destruct H as [<-|[]]. intros [].
  - destruct (split_on c s) as [|h r] eqn:E; [exact (False_ind _ (split_on_nonempty c s E))|].
    destruct (Ascii.eqb y c) eqn:Ey.
    + destruct H as [<-|H]; [intros []|]. apply IH. exact H.
    + destruct H as [<-|H]; [|apply IH; right; exact H].
      intros [X|X]; [subst y; rewrite Ascii.eqb_refl in Ey; discriminate|].
      apply (IH h); [left; reflexivity|exact X].
Qed.

Lemma kept_components s : Forall component (kept s).
Proof.
  apply Forall_forall. intros x H. unfold kept in H. apply filter_In in H. destruct H as [H E].
  apply in_map_iff in H. destruct H as [y [<- H]].
  apply negb_true_iff, orb_false_iff in E. destruct E as [E1 E2]. apply String.eqb_neq in E1, E2.
  split; [exact E1|]. split; [exact E2|]. rewrite list_ascii_of_string_of_list_ascii.
  eapply split_on_no_sep; eauto.
Qed.

Lemma kept_component n : component n -> kept (list_ascii_of_string n) = [n].
Proof.
  intros [H1 [H2 H3]]. unfold kept. rewrite split_on_none by auto. cbn [map filter].
  rewrite string_of_list_ascii_of_string. apply String.eqb_neq in H1, H2. rewrite H1, H2. reflexivity.
Qed.

Lemma kept_concat l : Forall component l -> kept (list_ascii_of_string (String.concat "/" l)) = l.
Proof.
  induction l as [|n l IH]; intros H; [reflexivity|]. inversion H as [|? ? H1 H2]; subst.
  destruct l as [|m l]; [apply kept_component; auto|].
  change (String.concat "/" (n :: m :: l)) with (n ++ "/" ++ String.concat "/" (m :: l))%string.
  rewrite !list_ascii_app. change (list_ascii_of_string "/") with [slash].
  cbn [app]. rewrite kept_app, kept_component, IH by auto. reflexivity.
Qed.

(** A path that continues a printed path. *)
Lemma to_path_under a l x : Forall component l ->
  to_path (path_str (a, l) ++ String slash x)%string = (a, l ++ kept (list_ascii_of_string x)).
Proof.
  intros H. unfold to_path at 1.
  assert (K : filter (fun x => negb (String.eqb x "" || String.eqb x "."))
            (map string_of_list_ascii (split_on slash (list_ascii_of_string (path_str (a, l) ++ String slash x)%string)))
          = l ++ kept (list_ascii_of_string x)).
  { change (kept (list_ascii_of_string (path_str (a, l) ++ String slash x)%string) = l ++ kept (list_ascii_of_string x)).
    rewrite list_ascii_app. cbn [list_ascii_of_string]. rewrite kept_app. f_equal.
    unfold path_str. cbn [fst snd]. destruct a.
    - change (list_ascii_of_string ("/" ++ String.concat "/" l)%string)
        with ([] ++ slash :: list_ascii_of_string (String.concat "/" l)).
      rewrite kept_app. change (kept []) with (@nil string).
      cbn [app]. apply kept_concat; auto.
    - destruct l as [|n l]; [reflexivity|]. apply kept_concat; auto. }
  f_equal; [|exact K]. clear K. rewrite list_ascii_app. unfold path_str. cbn [fst snd]. destruct a.
  - reflexivity.
  - destruct l as [|n l]; [reflexivity|]. inversion H as [|? ? [H1 [_ H3]] _]; subst.
    destruct n as [|c n]; [contradiction|].
    assert (E : list_ascii_of_string (String.concat "/" (String c n :: l)) =
            c :: list_ascii_of_string (String.concat "/" (n :: l))) by (destruct l; reflexivity).
    rewrite E. cbn [app]. apply Ascii.eqb_neq. intros ->. apply H3. left. reflexivity.
Qed.

Lemma chars_str l : chars (str l) = l.
Proof. apply list_ascii_of_string_of_list_ascii. Qed.
Lemma str_chars s : str (chars s) = s.
Proof. apply string_of_list_ascii_of_string. Qed.
Lemma str_inj a b : str a = str b -> a = b.
Proof. intros H. rewrite <- (chars_str a), <- (chars_str b), H. reflexivity. Qed.
Lemma chars_inj a b : chars a = chars b -> a = b.
Proof. intros H. rewrite <- (str_chars a), <- (str_chars b), H. reflexivity. Qed.

Section Sane.
Variables (L : lab).
Notation F := (lab_float L).

Lemma out_path t : tr_experiment_dir t <> ""%string -> file_name (tr_data_set t) ->
  ~ In slash (show_descriptor F (tr_descriptor t)) ->
  out_of L t = (fst (to_path (tr_experiment_dir t)),
                snd (to_path (tr_experiment_dir t)) ++
                [tr_data_set t; str (show_descriptor F (tr_descriptor t) ++ chars ".csv")]).
Proof.
  intros Hd Hn Hs. unfold out_of, results_path, to_path at 1. cbv zeta.
  fold (chars (str (chars (tr_experiment_dir t) ++ slash :: chars (tr_data_set t) ++ slash ::
    show_descriptor F (tr_descriptor t) ++ chars ".csv"))). rewrite chars_str.
  set (x := show_descriptor F (tr_descriptor t) ++ chars ".csv").
  assert (K : kept (chars (tr_experiment_dir t) ++ slash :: chars (tr_data_set t) ++ slash :: x) =
    snd (to_path (tr_experiment_dir t)) ++ [tr_data_set t; str x]).
  { rewrite !kept_app. rewrite to_path_kept. unfold chars at 1 2. f_equal. rewrite kept_name by auto.
    cbn [app]. f_equal. rewrite <- (chars_str x) at 1. apply kept_component.
    assert (Lx : (length x >= 4)%nat) by (unfold x; rewrite app_length; cbn; lia).
    split; [|split].
    - intros E. apply (f_equal chars) in E. rewrite chars_str in E. rewrite E in Lx. cbn in Lx. lia.
    - intros E. apply (f_equal chars) in E. rewrite chars_str in E. rewrite E in Lx. cbn in Lx. lia.
    - fold (chars (str x)). rewrite chars_str. unfold x. rewrite in_app_iff. intros [X|X]; [auto|].
      cbn in X. repeat (destruct X as [X|X]; [discriminate|]). exact X. }
  f_equal; [|exact K]. unfold to_path. cbn [fst].
  destruct (tr_experiment_dir t) as [|c s] eqn:E; [contradiction|]. reflexivity.
Qed.

Lemma pend_path t : file_name (lab_md5 L (results_path F t)) ->
  pending_path L t = (fst (to_path (tr_experiment_dir t)),
    removelast (snd (to_path (tr_experiment_dir t))) ++ ["pending"%string; lab_md5 L (results_path F t)]).
Proof.
  intros H. unfold pending_path.
  assert (C : Forall component (removelast (snd (to_path (tr_experiment_dir t))))).
  { rewrite to_path_kept. pose proof (kept_components (list_ascii_of_string (tr_experiment_dir t))) as K.
    set (l := kept _) in *. clearbody l. induction l as [|x l IH]; [constructor|]. cbn [removelast].
    inversion K; subst. destruct l; constructor; auto. }
  change (String.append "/pending/" (lab_md5 L (results_path F t)))
    with (String slash (String.append "pending/" (lab_md5 L (results_path F t)))).
  unfold parent. rewrite to_path_under by auto. f_equal. f_equal.
  rewrite list_ascii_app. change (list_ascii_of_string "pending/") with (list_ascii_of_string "pending" ++ [slash]).
  rewrite <- app_assoc. cbn [app]. rewrite kept_app, !kept_name; auto.
  split; [discriminate|]. split; [discriminate|]. split; [discriminate|].
  cbn. intros X. repeat (destruct X as [X|X]; [discriminate|]). exact X.
Qed.

Lemma within_length p q : within p q -> (length (snd p) <= length (snd q))%nat.
Proof. intros [r ->]. cbn. rewrite app_length. lia. Qed.

Lemma sane_separate ts : sane_trials L ts -> separate L ts.
Proof.
  intros [dir [H1 [H2 [H3 [H4 H5]]]]].
  assert (D : dir <> ""%string) by (intros ->; apply H1; reflexivity).
  destruct (exists_last H1) as [l [n En]]. rewrite En in H2. rewrite last_last in H2.
  set (a := fst (to_path dir)).
  assert (O : forall t, In t ts -> out_of L t = (a, (l ++ [n]) ++
            [tr_data_set t; str (show_descriptor F (tr_descriptor t) ++ chars ".csv")])).
  { intros t Ht. destruct (H3 t Ht) as [E [A [B C]]]. rewrite out_path by (auto; congruence).
    rewrite E, En. reflexivity. }
  assert (P : forall t, In t ts -> pending_path L t = (a, l ++ ["pending"%string; lab_md5 L (results_path F t)])).
  { intros t Ht. destruct (H3 t Ht) as [E [A [B C]]]. rewrite pend_path by auto.
    rewrite E, En, removelast_last. reflexivity. }
  split; [|split].
  - intros t Ht. rewrite (O t Ht), (P t Ht). cbn [snd]. split; intros X; apply app_eq_nil in X; destruct X; discriminate.
  - assert (OP : forall t t', In t ts -> In t' ts -> out_of L t <> pending_path L t').
    { intros t t' Ht Ht' E. rewrite (O t Ht), (P t' Ht') in E.
      assert (X : length ((l ++ [n]) ++ [tr_data_set t; str (show_descriptor F (tr_descriptor t) ++ chars ".csv")])
                  = length (l ++ ["pending"%string; lab_md5 L (results_path F t')])) by congruence.
      rewrite !app_length in X. cbn in X. lia. }
    assert (OO : forall t t', In t ts -> In t' ts -> out_of L t = out_of L t' ->
        (tr_data_set t, show_descriptor F (tr_descriptor t)) = (tr_data_set t', show_descriptor F (tr_descriptor t'))).
    { intros t t' Ht Ht' E. rewrite (O t Ht), (O t' Ht') in E.
      assert (X : [tr_data_set t; str (show_descriptor F (tr_descriptor t) ++ chars ".csv")] =
                  [tr_data_set t'; str (show_descriptor F (tr_descriptor t') ++ chars ".csv")]).
      { apply (app_inv_head (l ++ [n])). congruence. }
      assert (X2 : str (show_descriptor F (tr_descriptor t) ++ chars ".csv") =
                   str (show_descriptor F (tr_descriptor t') ++ chars ".csv")) by congruence.
      apply str_inj, app_inv_tail in X2. congruence. }
    assert (PP : forall t t', In t ts -> In t' ts -> pending_path L t = pending_path L t' -> out_of L t = out_of L t').
    { intros t t' Ht Ht' E. unfold out_of. f_equal. apply H4; auto. rewrite (P t Ht), (P t' Ht') in E.
      assert (X : ["pending"%string; lab_md5 L (results_path F t)] = ["pending"%string; lab_md5 L (results_path F t')]).
      { apply (app_inv_head l). congruence. }
      congruence. }
    clear O P En H4 H3. revert OP OO PP H5. clear. intros OP OO PP N.
    assert (G : forall f : trial -> path, (forall t t', In t ts -> In t' ts -> f t = f t' ->
        (tr_data_set t, show_descriptor F (tr_descriptor t)) = (tr_data_set t', show_descriptor F (tr_descriptor t'))) ->
        NoDup (map f ts)).
    { intros f Hf. clear OP OO PP. induction ts as [|t r IH]; [constructor|]. cbn [map] in *.
      inversion N as [|? ? N1 N2]; subst. constructor.
      - intros X. apply in_map_iff in X. destruct X as [t' [E Ht']]. apply N1. apply in_map_iff.
        exists t'. split; [|exact Ht']. apply Hf; [right; exact Ht'|left; reflexivity|exact E].
      - apply IH; [exact N2|]. intros u u' Hu Hu'. apply Hf; right; auto. }
    assert (App : forall (x y : list path), NoDup x -> NoDup y -> (forall z, In z x -> ~ In z y) -> NoDup (x ++ y)).
    { clear. induction x as [|z x IH]; intros y Nx Ny Dj; [exact Ny|]. inversion Nx; subst. cbn. constructor.
      - rewrite in_app_iff. intros [X|X]; [auto|]. apply (Dj z); [left; reflexivity|exact X].
      - apply IH; auto. intros w Hw. apply Dj. right. exact Hw. }
    apply App.
    + apply G. exact OO.
    + apply G. intros t t' Ht Ht' E. apply OO; auto.
    + intros z Hx Hy. apply in_map_iff in Hx, Hy. destruct Hx as [t [Et Ht]]. destruct Hy as [t' [Et' Ht']].
      apply (OP t t' Ht Ht'). congruence.
  - intros t t' Ht Ht'.
    assert (Po : parent (out_of L t) = (a, l ++ [n; tr_data_set t])).
    { rewrite (O t Ht). unfold parent. cbn [fst snd]. f_equal.
      change [tr_data_set t; str (show_descriptor F (tr_descriptor t) ++ chars ".csv")]
        with ([tr_data_set t] ++ [str (show_descriptor F (tr_descriptor t) ++ chars ".csv")]).
      rewrite app_assoc, removelast_last, <- app_assoc. reflexivity. }
    assert (Pp : parent (pending_path L t) = (a, l ++ ["pending"%string])).
    { rewrite (P t Ht). unfold parent. cbn [fst snd]. f_equal.
      change ["pending"%string; lab_md5 L (results_path F t)]
        with (["pending"%string] ++ [lab_md5 L (results_path F t)]).
      rewrite app_assoc, removelast_last. reflexivity. }
    unfold directory_of. rewrite Po, Pp, (O t' Ht'), (P t' Ht').
    split; intros [[_ W]|[_ W]]; pose proof (within_length _ _ W) as X; cbn [snd] in X;
      rewrite !app_length in X; cbn in X; try lia.
    destruct W as [r W]. cbn [fst snd] in W.
    assert (E : l ++ [n; tr_data_set t] = l ++ ["pending"%string; lab_md5 L (results_path F t')] ++ r).
    { rewrite app_assoc. congruence. }
    apply app_inv_head in E. cbn in E. assert (n = "pending"%string) by congruence. auto.
Qed.
End Sane.

Lemma node_dec (a b : option node) : {a = b} + {a <> b}.
Proof. repeat decide equality. Qed.

Lemma only_adds_trans L ts d d1 d2 :
  only_adds_directories L ts d d1 -> only_adds_directories L ts d1 d2 -> only_adds_directories L ts d d2.
Proof.
  intros O1 H2 q Hq.
  destruct (node_dec (ModelFiles.stat d1 q) (ModelFiles.stat d2 q)) as [X|X].
  - destruct (O1 q) as [Y|[Y1 [Y2 Y3]]]; [congruence|auto|]. right. split; [exact Y1|]. split; [congruence|exact Y3].
  - destruct (H2 q) as [Y|[Y1 [Y2 Y3]]]; [congruence|auto|].
    destruct (node_dec (ModelFiles.stat d q) (ModelFiles.stat d1 q)) as [Z|Z].
    + right. split; [congruence|]. auto.
    + destruct (O1 q) as [W|[_ [W _]]]; [congruence|auto|congruence].
Qed.

(** An environment for the examples about data designs. *)
From Coq Require Import String Ascii Qround Permutation Lqa.
From Verif Require Import Prelude ModelReachPoint ModelData SpecData ReachPointLemmas DataLemmas
  ModelFiles SpecFiles FilesLemmas FilesLemmas2 FilesLemmas3 PropsFiles ModelGenerators SpecGenerators
  GeneratorsLemmas GeneratorsLemmas2 PropsGenerators ModelDriver SpecDriver DriverLemmas4 DriverLemmas5
  ModelDesigns SpecDesigns.
Open Scope Z_scope.

(** Fractions "n|d". *)
Definition bar : ascii := "|"%char.
Definition bar_format : float_format :=
  {| show_float := fun x => str_of_int (Qnum x) ++ [bar] ++ str_of_int (Zpos (Qden x));
     read_float := fun s => match split_on bar s with
                            | [a; b] => n <- py_int a ;; d <- py_int b ;;
                                        match d with Zpos q => Ok (n # q) | _ => Err ValueError end
                            | _ => Err ValueError
                            end |}.

Lemma int_no_bar z : ~ In bar (str_of_int z).
Proof.
  intros I. apply str_of_int_char in I. destruct I as [I|[I|[v D]]]; try discriminate. inversion D.
Qed.

Lemma bar_prints_back x : prints_back bar_format x.
Proof.
  unfold prints_back, bar_format. cbn [show_float read_float].
  assert (forall c, In c (str_of_int (Qnum x) ++ [bar] ++ str_of_int (Zpos (Qden x))) -> c <> comma /\ c <> newline) as G.
  { intros c I. rewrite !in_app_iff in I. destruct I as [I|[[<-|[]]|I]].
    - apply str_of_int_chars in I; auto.
    - split; discriminate.
    - apply str_of_int_chars in I; auto. }
  split; [intros I; apply G in I; tauto|]. split; [intros I; apply G in I; tauto|].
  assert (split_on bar ((str_of_int (Qnum x) ++ [bar] ++ str_of_int (Zpos (Qden x))) ++ [newline])
    = [str_of_int (Qnum x); str_of_int (Zpos (Qden x)) ++ [newline]]) as ->.
  { apply split_on_two. split; [rewrite <- !app_assoc; auto|]. split; [apply int_no_bar|].
    intros I. apply in_app_iff in I. destruct I as [I|[I|[]]]; [|discriminate]. exact (int_no_bar _ I). }
  assert (py_int (str_of_int (Qnum x)) = Ok (Qnum x)) as -> by apply py_int_spec, str_of_int_literal.
  cbn [bind].
  assert (py_int (str_of_int (Zpos (Qden x)) ++ [newline]) = Ok (Zpos (Qden x))) as ->.
  { apply py_int_spec. destruct (str_of_int_literal (Zpos (Qden x))) as [b [sg [body [a [n [E [H1 [H2 [H3 H4]]]]]]]]].
    exists b, sg, body, (a ++ [newline]), n. split; [rewrite E, <- !app_assoc; auto|].
    split; auto. split; [|auto]. apply Forall_app. split; auto. constructor; auto.
    right; right; left; auto. }
  cbn [bind]. destruct x; auto.
Qed.

Lemma bar_in q : In bar (show_float bar_format q).
Proof. cbn [bar_format show_float]. apply in_app_iff. right. left. reflexivity. Qed.

Lemma bar_tells_apart : tells_floats_apart bar_format.
Proof.
  split; [|split; [|split]].
  - intros q. split.
    + intros E. pose proof (bar_in q) as I. rewrite E in I. exact I.
    + intros c I. cbn [bar_format show_float] in I. rewrite !in_app_iff in I. destruct I as [I|[[<-|[]]|I]].
      * exact (str_of_int_plain _ c I).
      * unfold special. cbn [In]. intuition discriminate.
      * exact (str_of_int_plain _ c I).
  - intros q q' E. pose proof (bar_prints_back q) as [_ [_ R]]. pose proof (bar_prints_back q') as [_ [_ R']].
    rewrite E in R. rewrite R in R'. inversion R'; subst. reflexivity.
  - intros q z E. pose proof (bar_in q) as I. rewrite E in I. exact (int_no_bar _ I).
  - intros q. split; intros E; pose proof (bar_in q) as I; rewrite E in I; cbn in I; intuition discriminate.
Qed.

Lemma bar_words : words_are_words bar_format.
Proof.
  assert (G : forall s, (forall c, In c (list_ascii_of_string s) -> c <> bar) ->
     (forall c v, In c (list_ascii_of_string s) -> c <> "-"%char /\ c <> "_"%char /\ ~ digit_is c v) ->
     s <> ""%string -> s <> "True"%string -> s <> "False"%string -> looks_like_a_string bar_format s).
  { intros s Hc Hd H0 HT HF v Hv E. destruct v as [[z|q]|s'|b].
    - cbn [show_value show_number] in E. assert (exists c, In c (str_of_int z)) as [c I].
      { destruct (str_of_int z) as [|c t] eqn:Ez; [exfalso; apply (str_of_int_nonempty z Ez)|exists c; left; reflexivity]. }
      pose proof I as I'. rewrite E in I'. apply str_of_int_char in I.
      destruct I as [-> | [-> | [v D]]]; [exact (proj1 (Hd _ 0 I') eq_refl)|exact (proj1 (proj2 (Hd _ 0 I')) eq_refl)|].
      exact (proj2 (proj2 (Hd c v I')) D).
    - cbn [show_value show_number] in E. pose proof (bar_in q) as I. rewrite E in I. exact (Hc _ I eq_refl).
    - exact (Hv s' eq_refl).
    - destruct b; [apply HT; change (show_value bar_format (VBool true)) with (list_ascii_of_string "True") in E
        |apply HF; change (show_value bar_format (VBool false)) with (list_ascii_of_string "False") in E]; apply (f_equal string_of_list_ascii) in E;
        rewrite !string_of_list_ascii_of_string in E; symmetry; exact E. }
  unfold words_are_words.
  repeat (apply Forall_cons; [apply G; try discriminate;
    [intros c I; cbn in I; intuition (subst; discriminate)
    |intros c v I; cbn in I; repeat split; intuition (subst; try discriminate);
       match goal with H : digit_is _ _ |- _ => inversion H end]|]).
  apply Forall_nil.
Qed.

(** The first root is exact, the others are all one. *)
Definition ex_pow (x : Q) (k : Z) : Q := if k =? 1 then x else 1%Q.
Lemma ex_pow_root : nearly_root ex_pow.
Proof.
  intros x k Hx Hk. unfold ex_pow. destruct (Z.eqb_spec k 1) as [->|N].
  - split; [split; lra|]. split; [|auto].
    change (Z.to_nat 1) with 1%nat. cbn [Qpow]. lra.
  - split; [split; lra|]. split; [|reflexivity].
    assert (E : (Qpow 1 (Z.to_nat k) == 1)%Q).
    { induction (Z.to_nat k) as [|m IH]; cbn [Qpow]; [reflexivity|]. rewrite IH. reflexivity. }
    rewrite E. lra.
Qed.

(** Sets of consecutive numbers, in the reverse order unless the order is the original one. *)
Definition ranges (sizes : list Z) : list (list Z) := map (fun n => py_range 0 n) sizes.
Definition ex_sets : synthetic_externals seq_options := {|
  sx_pow := ex_pow; sx_str := fun k => string_of_list_ascii (str_of_int k);
  sx_random_name := "r"; sx_set_order := ex_order;
  sx_independent := fun sizes u seed => Ok (ranges sizes);
  sx_sequential := fun sizes o seed =>
    Ok (ranges (if String.eqb (so_order o) "original" then sizes else rev sizes)) |}.

Lemma ranges_ok sizes : Forall (fun s => 1 <= s) sizes -> Forall2 labels_for (ranges sizes) sizes.
Proof.
  intros H. induction H as [|s sizes Hs H IH]; constructor; [|exact IH]. unfold py_range. split.
  - apply FinFun.Injective_map_NoDup; [|apply seq_NoDup]. intros a b; lia.
  - rewrite map_length, seq_length. lia.
Qed.

Lemma ex_set_generators : set_generators ex_sets.
Proof.
  split.
  - apply ex_order_visits.
  - intros sizes u seed H. exists (ranges sizes). split; [reflexivity|]. apply ranges_ok.
    eapply Forall_impl; [|exact H]. cbn. lia.
  - intros sizes o seed H _ _ _. cbn [ex_sets sx_sequential].
    destruct (String.eqb_spec (so_order o) "original") as [E|N].
    + exists (ranges sizes), sizes. split; [reflexivity|]. split; [reflexivity|]. split; [auto|]. apply ranges_ok. exact H.
    + exists (ranges (rev sizes)), (rev sizes). split; [reflexivity|].
      split; [symmetry; apply Permutation_rev|]. split; [congruence|]. apply ranges_ok. apply Forall_rev. exact H.
Qed.

Lemma ex_draws : numpy_draws ex_rng.
Proof.
  split.
  - intros lambda st _. do 2 eexists. reflexivity.
  - intros a b st [A1 A2] _. exists a, (st + 1). split; [reflexivity|]. split; lra.
  - intros s st _. do 2 eexists. reflexivity.
Qed.

Lemma ex_environment : environment ex_rng ex_sets bar_format.
Proof.
  split; [apply ex_rng_behaves|apply ex_draws|apply ex_pow_root|apply ex_set_generators|reflexivity|apply bar_prints_back].
Qed.

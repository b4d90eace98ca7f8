(** Printed descriptors can be told apart. *)
From Coq Require Import String Ascii.
From Verif Require Import Prelude ModelAggregator ModelFiles SpecFiles FilesLemmas FilesLemmas2 FilesLemmas3
  ModelDriver SpecDriver DriverLemmas4.
Open Scope Z_scope.

Lemma str_of_int_inj a b : str_of_int a = str_of_int b -> a = b.
Proof.
  intros H. pose proof (str_of_int_literal a) as A. pose proof (str_of_int_literal b) as B. rewrite H in A.
  apply py_int_spec in A, B. congruence.
Qed.

Lemma str_of_int_char z c : In c (str_of_int z) -> c = "-"%char \/ c = "_"%char \/ exists v, digit_is c v.
Proof.
  unfold str_of_int.
  assert (numeral (digits (S (Z.to_nat (Z.log2 (Z.abs z)))) (Z.abs z) []) (Z.abs z)) as N.
  { apply digits_numeral; [|lia]. split; [lia|]. apply pow_bound; lia. }
  intros I. apply in_app_iff in I. destruct I as [I|I].
  - destruct (z <? 0); [|destruct I]. destruct I as [<-|[]]. auto.
  - right. destruct (numeral_chars _ _ _ N I) as [->|D]; auto.
Qed.

Lemma str_of_int_plain z : no_special (str_of_int z).
Proof.
  intros c H. apply str_of_int_char in H. unfold special.
  destruct H as [-> | [-> | [v D]]].
  - intros X. cbn in X. repeat (destruct X as [X|X]; [discriminate|]). exact X.
  - intros X. cbn in X. repeat (destruct X as [X|X]; [discriminate|]). exact X.
  - intros X. cbn in X. repeat (destruct X as [X|X]; [subst c; inversion D|]). exact X.
Qed.

Lemma str_of_int_nonempty z : str_of_int z <> [].
Proof.
  intros H. pose proof (str_of_int_literal z) as X. rewrite H in X.
  destruct X as [b [s [m [a [n [E [_ [_ [N _]]]]]]]]].
  symmetry in E. apply app_eq_nil in E. destruct E as [_ E]. apply app_eq_nil in E. destruct E as [_ E].
  apply app_eq_nil in E. destruct E as [-> _].
  inversion N as [|s0 n0 c v N0 D E|s0 n0 c v N0 D E].
  - destruct s0; discriminate.
  - destruct s0; discriminate.
Qed.

Section Printing.
Variable F : float_format.
Hypothesis floats : tells_floats_apart F.
Hypothesis alike : forall q q', (q == q')%Q -> show_float F q = show_float F q'.

(** Cutting at the first special character. *)
Lemma cut a : forall a' c c' r r', no_special a -> no_special a' -> special c -> special c' ->
  a ++ c :: r = a' ++ c' :: r' -> a = a' /\ c = c' /\ r = r'.
Proof.
  clear floats alike. induction a as [|x a IH]; intros a' c c' r r' Ha Ha' Hc Hc' E; destruct a' as [|x' a'].
  - inversion E. auto.
  - exfalso. cbn in E. inversion E; subst. apply (Ha' x'); [left; reflexivity|exact Hc].
  - exfalso. cbn in E. inversion E; subst. apply (Ha c'); [left; reflexivity|exact Hc'].
  - cbn in E. inversion E as [[E1 E2]]. destruct (IH a' c c' r r') as [H1 [H2 H3]]; auto.
    + intros y Hy. apply Ha. right. exact Hy.
    + intros y Hy. apply Ha'. right. exact Hy.
    + subst. auto.
Qed.

Lemma special_comma : special comma. Proof. unfold special. cbn. auto. Qed.
Lemma special_close : special ")". Proof. unfold special. cbn. auto. Qed.
Lemma special_open : special "(". Proof. unfold special. cbn. auto. Qed.
Lemma special_eq : special "=". Proof. unfold special. cbn. auto. Qed.
Lemma special_slash : special slash. Proof. unfold special. cbn. auto 10. Qed.

Lemma number_plain n : no_special (show_number F n).
Proof. destruct n as [z|q]; cbn [show_number]; [apply str_of_int_plain|apply floats]. Qed.
Lemma number_nonempty n : show_number F n <> [].
Proof. destruct n as [z|q]; cbn [show_number]; [apply str_of_int_nonempty|apply floats]. Qed.
Lemma number_apart m n : show_number F m = show_number F n -> same_number m n.
Proof.
  destruct floats as [_ [Fe [Fi _]]]. destruct m as [x|x], n as [y|y]; cbn [show_number same_number].
  - apply str_of_int_inj.
  - intros H; exact (Fi y x (eq_sym H)).
  - intros H; exact (Fi x y H).
  - apply Fe.
Qed.
Lemma number_same m n : same_number m n -> show_number F m = show_number F n.
Proof.
  destruct m as [x|x], n as [y|y]; cbn [show_number same_number]; [intros ->; reflexivity|intros []|intros []|apply alike].
Qed.

Definition plain_value (v : value) : Prop := forall s, v = VStr s -> plain s /\ looks_like_a_string F s.

Lemma bool_plain b : no_special (show_value F (VBool b)).
Proof.
  intros c H X. destruct b; cbn in H, X;
    repeat (destruct H as [H|H]; [subst c; repeat (destruct X as [X|X]; [discriminate|]); exact X|]); exact H.
Qed.
Lemma value_plain v : plain_value v -> no_special (show_value F v).
Proof.
  intros H. destruct v as [n|s|b]; [apply number_plain| |apply bool_plain].
  destruct (H s eq_refl) as [P _]. exact P.
Qed.
Lemma number_not_bool n b : show_number F n <> show_value F (VBool b).
Proof.
  destruct floats as [_ [_ [_ Fb]]]. destruct n as [z|q]; cbn [show_number].
  - intros E. pose proof (str_of_int_char z) as C. rewrite E in C.
    assert (X : In (match b with true => "T"%char | false => "F"%char end) (show_value F (VBool b))).
    { destruct b; left; reflexivity. }
    destruct (C _ X) as [Y|[Y|[v D]]]; destruct b; try discriminate; inversion D.
  - destruct b; cbn; apply Fb.
Qed.
Lemma value_apart v w : plain_value v -> plain_value w ->
  show_value F v = show_value F w -> same_value v w.
Proof.
  intros Hv Hw. destruct v as [m|s|b], w as [n|s'|b']; intros E.
  - apply number_apart. exact E.
  - cbn [same_value]. destruct (Hw s' eq_refl) as [_ X]. apply (X (VNum m)); [discriminate|exact E].
  - cbn [same_value]. exact (number_not_bool m b' E).
  - cbn [same_value]. destruct (Hv s eq_refl) as [_ X]. apply (X (VNum n)); [discriminate|exact (eq_sym E)].
  - cbn [same_value]. apply chars_inj. exact E.
  - cbn [same_value]. destruct (Hv s eq_refl) as [_ X]. apply (X (VBool b')); [discriminate|exact (eq_sym E)].
  - cbn [same_value]. exact (number_not_bool n b (eq_sym E)).
  - cbn [same_value]. destruct (Hw s' eq_refl) as [_ X]. apply (X (VBool b)); [discriminate|exact E].
  - cbn [same_value]. revert E. destruct b, b'; cbn; auto; discriminate.
Qed.
Lemma value_same v w : same_value v w -> show_value F v = show_value F w.
Proof.
  destruct v as [m|s|b], w as [n|s'|b']; cbn [same_value]; try (intros []; fail).
  - apply number_same.
  - intros ->. reflexivity.
  - intros ->. reflexivity.
Qed.

(** ** Dictionaries *)

Definition item (kv : string * value) : text := chars (fst kv) ++ "="%char :: show_value F (snd kv).

Lemma item_eq k v : item (k, v) = chars k ++ "="%char :: show_value F v.
Proof. reflexivity. Qed.
Lemma joined_one sep (x : text) : joined sep [x] = x.
Proof. reflexivity. Qed.
Lemma joined_cons sep x y l : joined sep (x :: y :: l) = x ++ sep :: joined sep (y :: l).
Proof. reflexivity. Qed.

Lemma items_cut kv kw : forall kv' kw' r r',
  plain_kwargs F (kv :: kw) -> plain_kwargs F (kv' :: kw') ->
  joined comma (map item (kv :: kw)) ++ ")"%char :: r = joined comma (map item (kv' :: kw')) ++ ")"%char :: r' ->
  same_kwargs (kv :: kw) (kv' :: kw') /\ r = r'.
Proof.
  revert kv. induction kw as [|y kw IH]; intros kv kv' kw' r r' P P' E.
  - destruct kv as [k v], kv' as [k' v'].
    destruct (P k v (or_introl eq_refl)) as [Pk Pv]. destruct (P' k' v' (or_introl eq_refl)) as [Pk' Pv'].
    destruct kw' as [|y' kw'].
    + cbn [map] in E. rewrite !joined_one, !item_eq in E. rewrite <- !app_assoc in E. cbn [app] in E.
      destruct (cut _ _ _ _ _ _ Pk Pk' special_eq special_eq E) as [E1 [_ E2]].
      destruct (cut _ _ _ _ _ _ (value_plain v Pv) (value_plain v' Pv') special_close special_close E2) as [E3 [_ E4]].
      split; [|exact E4]. constructor; [|constructor]. cbn [fst snd]. split; [apply chars_inj; exact E1|].
      apply value_apart; auto.
    + exfalso. cbn [map] in E. rewrite joined_cons, joined_one, !(item_eq k), !(item_eq k') in E.
      rewrite <- !app_assoc in E. cbn [app] in E.
      destruct (cut _ _ _ _ _ _ Pk Pk' special_eq special_eq E) as [_ [_ E2]].
      try rewrite <- app_assoc in E2. cbn [app] in E2.
      destruct (cut _ _ _ _ _ _ (value_plain v Pv) (value_plain v' Pv') special_close special_comma E2) as [_ [X _]].
      discriminate.
  - destruct kv as [k v], kv' as [k' v'].
    destruct (P k v (or_introl eq_refl)) as [Pk Pv]. destruct (P' k' v' (or_introl eq_refl)) as [Pk' Pv'].
    destruct kw' as [|y' kw'].
    + exfalso. cbn [map] in E. rewrite joined_cons, joined_one, !(item_eq k), !(item_eq k') in E.
      rewrite <- !app_assoc in E. cbn [app] in E.
      destruct (cut _ _ _ _ _ _ Pk Pk' special_eq special_eq E) as [_ [_ E2]].
      try rewrite <- app_assoc in E2. cbn [app] in E2.
      destruct (cut _ _ _ _ _ _ (value_plain v Pv) (value_plain v' Pv') special_comma special_close E2) as [_ [X _]].
      discriminate.
    + cbn [map] in E. rewrite !joined_cons, !(item_eq k), !(item_eq k') in E.
      rewrite <- !app_assoc in E. cbn [app] in E.
      destruct (cut _ _ _ _ _ _ Pk Pk' special_eq special_eq E) as [E1 [_ E2]].
      try rewrite <- !app_assoc in E2. cbn [app] in E2.
      destruct (cut _ _ _ _ _ _ (value_plain v Pv) (value_plain v' Pv') special_comma special_comma E2) as [E3 [_ E4]].
      change (item y :: map item kw) with (map item (y :: kw)) in E4.
      change (item y' :: map item kw') with (map item (y' :: kw')) in E4.
      destruct (IH y y' kw' r r') as [H1 H2].
      * intros a b H. apply P. right. exact H.
      * intros a b H. apply P'. right. exact H.
      * exact E4.
      * split; [|exact H2]. constructor; [|exact H1]. cbn [fst snd]. split; [apply chars_inj; exact E1|].
        apply value_apart; auto.
Qed.

(** A text after which the next dictionary or part begins. *)
Definition next_part (r : text) : Prop := r = [] \/ exists s, r = comma :: s.

Lemma show_kwargs_cons kv kw : show_kwargs F (kv :: kw) = "("%char :: joined comma (map item (kv :: kw)) ++ [")"%char].
Proof. reflexivity. Qed.

Lemma named_kwargs_cut n n' kw kw' r r' : plain n -> plain n' -> plain_kwargs F kw -> plain_kwargs F kw' ->
  chars n ++ show_kwargs F kw ++ comma :: r = chars n' ++ show_kwargs F kw' ++ comma :: r' ->
  n = n' /\ same_kwargs kw kw' /\ r = r'.
Proof.
  intros Pn Pn' P P' E. destruct kw as [|kv kw], kw' as [|kv' kw'].
  - cbn [show_kwargs app] in E. destruct (cut _ _ _ _ _ _ Pn Pn' special_comma special_comma E) as [E1 [_ E2]].
    split; [apply chars_inj; exact E1|]. split; [constructor|exact E2].
  - exfalso. rewrite show_kwargs_cons in E. cbn [show_kwargs app] in E.
    destruct (cut _ _ _ _ _ _ Pn Pn' special_comma special_open E) as [_ [X _]]. discriminate.
  - exfalso. rewrite show_kwargs_cons in E. cbn [show_kwargs app] in E.
    destruct (cut _ _ _ _ _ _ Pn Pn' special_open special_comma E) as [_ [X _]]. discriminate.
  - rewrite !show_kwargs_cons in E. cbn [app] in E.
    destruct (cut _ _ _ _ _ _ Pn Pn' special_open special_open E) as [E1 [_ E2]].
    rewrite <- !app_assoc in E2. cbn [app] in E2.
    destruct (items_cut _ _ _ _ _ _ P P' E2) as [H1 H2].
    split; [apply chars_inj; exact E1|]. split; [exact H1|]. congruence.
Qed.

Lemma show_kwargs_same kw kw' : same_kwargs kw kw' -> show_kwargs F kw = show_kwargs F kw'.
Proof.
  intros H.
  assert (E : map item kw = map item kw').
  { induction H as [|x y l l' [H1 H2] H IH]; [reflexivity|]. cbn [map]. f_equal; [|exact IH].
    unfold item. rewrite H1. f_equal. f_equal. apply value_same. exact H2. }
  destruct kw as [|x l], kw' as [|y l']; try (inversion H; fail); [reflexivity|].
  rewrite !show_kwargs_cons, E. reflexivity.
Qed.

(** ** Lists of numbers *)

Lemma numbers_cut l : forall l' r r',
  joined comma (map (show_number F) l) ++ ")"%char :: r = joined comma (map (show_number F) l') ++ ")"%char :: r' ->
  Forall2 same_number l l' /\ r = r'.
Proof.
  induction l as [|x l IH]; intros l' r r' E.
  - destruct l' as [|x' l']; [cbn in E; split; [constructor|congruence]|]. exfalso.
    destruct l' as [|y' l'].
    + cbn [map joined] in E. change (joined comma []) with (@nil ascii) in E.
      destruct (cut [] _ _ _ _ _ ltac:(intros ? []) (number_plain x') special_close special_close E) as [X _].
      exact (number_nonempty x' (eq_sym X)).
    + cbn [map] in E. rewrite joined_cons, <- app_assoc in E. cbn [app] in E.
      destruct (cut [] _ _ _ _ _ ltac:(intros ? []) (number_plain x') special_close special_comma E) as [_ [X _]]. discriminate.
  - destruct l as [|y l].
    + destruct l' as [|x' l'].
      * exfalso. cbn [map joined] in E. change (joined comma []) with (@nil ascii) in E.
        destruct (cut _ [] _ _ _ _ (number_plain x) ltac:(intros ? []) special_close special_close E) as [X _].
        exact (number_nonempty x X).
      * destruct l' as [|y' l'].
        { cbn [map joined] in E.
          destruct (cut _ _ _ _ _ _ (number_plain x) (number_plain x') special_close special_close E) as [X [_ Y]].
          split; [|exact Y]. constructor; [apply number_apart; exact X|constructor]. }
        { exfalso. cbn [map] in E. rewrite joined_cons, <- app_assoc in E. cbn [app joined] in E.
          destruct (cut _ _ _ _ _ _ (number_plain x) (number_plain x') special_close special_comma E) as [_ [X _]]. discriminate. }
    + cbn [map] in E. rewrite joined_cons, <- app_assoc in E. cbn [app] in E.
      destruct l' as [|x' l'].
      * exfalso. cbn [map joined] in E.
        destruct (cut _ [] _ _ _ _ (number_plain x) ltac:(intros ? []) special_comma special_close E) as [_ [X _]]. discriminate.
      * destruct l' as [|y' l'].
        { exfalso. cbn [map joined] in E.
          destruct (cut _ _ _ _ _ _ (number_plain x) (number_plain x') special_comma special_close E) as [_ [X _]]. discriminate. }
        { cbn [map] in E. rewrite joined_cons, <- app_assoc in E. cbn [app] in E.
          destruct (cut _ _ _ _ _ _ (number_plain x) (number_plain x') special_comma special_comma E) as [X [_ Y]].
          destruct (IH (y' :: l') r r' Y) as [H1 H2]. split; [|exact H2]. constructor; [apply number_apart; exact X|exact H1]. }
Qed.

Lemma numbers_same l l' : Forall2 same_number l l' -> map (show_number F) l = map (show_number F) l'.
Proof. intros H. induction H as [|x y l l' H1 H2 IH]; [reflexivity|]. cbn [map]. rewrite IH. f_equal. apply number_same. exact H1. Qed.

(** ** Descriptors *)

Lemma number_field n n' p r r' :
  show_number F n ++ (comma :: p) ++ r = show_number F n' ++ (comma :: p) ++ r' -> same_number n n' /\ r = r'.
Proof.
  intros E. cbn [app] in E.
  destruct (cut _ _ _ _ _ _ (number_plain n) (number_plain n') special_comma special_comma E) as [X [_ Y]].
  split; [apply number_apart; exact X|]. apply app_inv_head in Y. exact Y.
Qed.
Lemma int_field n n' p r r' :
  str_of_int n ++ (comma :: p) ++ r = str_of_int n' ++ (comma :: p) ++ r' -> n = n' /\ r = r'.
Proof.
  intros E. cbn [app] in E.
  destruct (cut _ _ _ _ _ _ (str_of_int_plain n) (str_of_int_plain n') special_comma special_comma E) as [X [_ Y]].
  split; [apply str_of_int_inj; exact X|]. apply app_inv_head in Y. exact Y.
Qed.

Lemma descriptor_apart_parts a b : plain_descriptor F a -> plain_descriptor F b ->
  show_descriptor F a = show_descriptor F b -> same_settings a b.
Proof.
  intros [A1 [A2 [A3 [A4 [A5 [A6 [A7 A8]]]]]]] [B1 [B2 [B3 [B4 [B5 [B6 [B7 B8]]]]]]].
  destruct a as [as_ ay ae], b as [bs by_ be]. cbn [td_strategy td_system td_experiment] in *.
  - intros E. unfold show_descriptor in E. cbn [td_strategy td_system td_experiment] in E.
    unfold show_strategy in E. repeat (rewrite <- !app_assoc in E; cbn [app] in E).
    destruct (named_kwargs_cut _ _ _ _ _ _ A1 B1 A2 B2 E) as [S1 [S2 E1]]. clear E.
    repeat (rewrite <- !app_assoc in E1; cbn [app] in E1).
    destruct (named_kwargs_cut _ _ _ _ _ _ A3 B3 A4 B4 E1) as [S3 [S4 E2]]. clear E1.
    repeat (rewrite <- !app_assoc in E2; cbn [app] in E2).
    destruct (named_kwargs_cut _ _ _ _ _ _ A5 B5 A6 B6 E2) as [S5 [S6 E3]]. clear E2.
    unfold show_system in E3. rewrite <- !app_assoc in E3. apply app_inv_head in E3.
    change (chars "),decay_rate=") with (")"%char :: chars ",decay_rate=") in E3. cbn [app] in E3.
    destruct (numbers_cut _ _ _ _ E3) as [S7 E4]. clear E3. apply app_inv_head in E4.
    change (chars ",sketch_size=") with (comma :: chars "sketch_size=") in E4.
    destruct (number_field _ _ _ _ _ E4) as [S8 E5]. clear E4.
    unfold show_experiment in E5. change (chars "epsilon=") with ([] ++ chars "epsilon=") in E5.
    change (comma :: ([] ++ chars "epsilon=") ++ ?x) with ((comma :: chars "epsilon=") ++ x) in E5.
    destruct (number_field _ _ _ _ _ E5) as [S9 E6]. clear E5.
    change (chars ",delta=") with (comma :: chars "delta=") in E6.
    destruct (number_field _ _ _ _ _ E6) as [S10 E7]. clear E6.
    change (chars ",replica_id=") with (comma :: chars "replica_id=") in E7.
    destruct (number_field _ _ _ _ _ E7) as [S11 E8]. clear E7.
    change (chars ",max_frequency=") with (comma :: chars "max_frequency=") in E8.
    destruct (int_field _ _ _ _ _ E8) as [S12 E9]. clear E8.
    change (chars ",test_point_strategy=") with (comma :: chars "test_point_strategy=") in E9.
    destruct (int_field _ _ _ _ _ E9) as [S13 E10]. clear E9.
    assert (E11 : chars (ep_test_points ae) ++ show_kwargs F (ep_test_kwargs ae) ++ comma :: [] =
                  chars (ep_test_points be) ++ show_kwargs F (ep_test_kwargs be) ++ comma :: []).
    { rewrite !app_assoc. f_equal. exact E10. }
    destruct (named_kwargs_cut _ _ _ _ _ _ A7 B7 A8 B8 E11) as [S14 [S15 _]].
    repeat split; assumption.
Qed.

Lemma descriptor_same_parts a b : plain_descriptor F a -> plain_descriptor F b ->
  (show_descriptor F a = show_descriptor F b <-> same_settings a b).
Proof.
  intros A B. split; [apply descriptor_apart_parts; assumption|].
  destruct a as [as_ ay ae], b as [bs by_ be].
  - intros [[S1 [S2 [S3 [S4 [S5 S6]]]]] [[S7 [S8 S9]] [S10 [S11 [S12 [S13 [S14 S15]]]]]]].
    cbn [td_strategy td_system td_experiment] in *.
    unfold show_descriptor, show_strategy, show_system, show_experiment. cbn [td_strategy td_system td_experiment].
    rewrite S1, S3, S5, S12, S13, S14.
    rewrite (show_kwargs_same _ _ S2), (show_kwargs_same _ _ S4), (show_kwargs_same _ _ S6),
      (show_kwargs_same _ _ S15), (numbers_same _ _ S7),
      (number_same _ _ S8), (number_same _ _ S9), (number_same _ _ S10),
      (number_same _ _ S11).
    reflexivity.
Qed.

End Printing.

Lemma prints_apart F : prints_floats F -> tells_floats_apart F.
Proof. intros [A [B C]]. split; [exact A|]. split; [|exact C]. intros q q' E. apply B. exact E. Qed.
Lemma prints_alike F : prints_floats F -> forall q q', (q == q')%Q -> show_float F q = show_float F q'.
Proof. intros [_ [B _]] q q' E. apply B. exact E. Qed.

Theorem descriptor_same F : prints_floats F -> forall a b, plain_descriptor F a -> plain_descriptor F b ->
  (show_descriptor F a = show_descriptor F b <-> same_settings a b).
Proof. intros P a b. apply descriptor_same_parts; [apply prints_apart|apply prints_alike]; exact P. Qed.

Theorem descriptor_apart F : tells_floats_apart F -> forall a b, plain_descriptor F a -> plain_descriptor F b ->
  show_descriptor F a = show_descriptor F b -> same_settings a b.
Proof. intros P a b. apply descriptor_apart_parts. exact P. Qed.

(** Printed descriptors contain no '/'. *)
Lemma no_slash_app a b : ~ In slash a -> ~ In slash b -> ~ In slash (a ++ b).
Proof. rewrite in_app_iff. tauto. Qed.
Lemma no_slash_cons c b : c <> slash -> ~ In slash b -> ~ In slash (c :: b).
Proof. intros H H1 [X|X]; auto. Qed.
Lemma plain_no_slash s : no_special s -> ~ In slash s.
Proof. intros H X. exact (H _ X special_slash). Qed.
Lemma joined_no_slash c l : c <> slash -> Forall (fun x => ~ In slash x) l -> ~ In slash (joined c l).
Proof.
  intros Hc H. induction H as [|x l Hx Hl IH]; [intros []|]. destruct l as [|y l]; [exact Hx|].
  rewrite joined_cons. apply no_slash_app; [exact Hx|]. apply no_slash_cons; auto.
Qed.
Lemma show_kwargs_no_slash F kw : tells_floats_apart F -> plain_kwargs F kw -> ~ In slash (show_kwargs F kw).
Proof.
  intros PF H. destruct kw as [|kv kw]; [intros []|]. rewrite show_kwargs_cons. apply no_slash_cons; [discriminate|].
  apply no_slash_app; [|apply no_slash_cons; [discriminate|intros []]].
  apply joined_no_slash; [discriminate|]. apply Forall_forall. intros x Hx. apply in_map_iff in Hx.
  destruct Hx as [[k v] [<- Hk]]. destruct (H k v Hk) as [P1 P2]. rewrite item_eq.
  apply no_slash_app; [apply plain_no_slash; exact P1|]. apply no_slash_cons; [discriminate|].
  apply plain_no_slash, value_plain; auto.
Qed.
Lemma descriptor_no_slash F d : tells_floats_apart F -> plain_descriptor F d -> ~ In slash (show_descriptor F d).
Proof.
  intros PF [A1 [A2 [A3 [A4 [A5 [A6 [A7 A8]]]]]]].
  assert (C : forall s, existsb (Ascii.eqb slash) (chars s) = false -> ~ In slash (chars s)).
  { intros s H X. assert (existsb (Ascii.eqb slash) (chars s) = true).
    { apply existsb_exists. exists slash. split; [exact X|reflexivity]. } congruence. }
  assert (N : forall n, ~ In slash (show_number F n)) by (intros n; apply plain_no_slash, number_plain; auto).
  assert (I : forall z, ~ In slash (str_of_int z)) by (intros z; apply plain_no_slash, str_of_int_plain).
  unfold show_descriptor, show_strategy, show_system, show_experiment.
  repeat first [ apply N | apply I | apply show_kwargs_no_slash; assumption
    | (apply plain_no_slash; assumption) | (apply C; reflexivity)
    | match goal with |- ~ In _ (_ ++ _) => apply no_slash_app | |- ~ In _ (_ :: _) => apply no_slash_cons; [discriminate|] end ].
  apply joined_no_slash; [discriminate|]. apply Forall_forall. intros x Hx. apply in_map_iff in Hx.
  destruct Hx as [n [<- _]]. apply N.
Qed.

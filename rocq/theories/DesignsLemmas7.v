(** The levels of the shipped designs. *)
From Coq Require Import String Ascii Qround Permutation Lqa.
From Verif Require Import Prelude ModelReachPoint ModelData ModelFiles SpecFiles ModelGenerators SpecGenerators
  ModelDriver SpecDriver DriverLemmas4 DriverLemmas5
  ModelDesigns SpecDesigns DesignsLemmas DesignsLemmas2 DesignsLemmas4 DesignsLemmas5.
Open Scope Z_scope.

(** ** Checking names *)

Definition plain_check (s : string) : bool :=
  forallb (fun c => negb (existsb (Ascii.eqb c) ["("; ")"; ","; "="; "/"]%char)) (list_ascii_of_string s).
Lemma plain_checked s : plain_check s = true -> plain s.
Proof.
  unfold plain_check, plain, no_special. rewrite forallb_forall. intros H c I Sp. specialize (H c I).
  apply negb_true_iff in H. assert (X : existsb (Ascii.eqb c) ["("; ")"; ","; "="; "/"]%char = true); [|congruence].
  apply existsb_exists. exists c. split; [exact Sp|apply Ascii.eqb_refl].
Qed.

Definition words : list string := ["original"; "random"; "all"; "one"]%string.
Definition generator_check (g : generator_parameters) : bool :=
  plain_check (gn_name g) &&
  forallb (fun kv => plain_check (fst kv) &&
                     match snd kv with VStr s => plain_check s && existsb (String.eqb s) words | _ => true end) (gn_params g).
Lemma generator_checked F g : words_are_words F -> generator_check g = true -> plain_generator F g.
Proof.
  intros W H. unfold generator_check in H. apply andb_true_iff in H. destruct H as [H1 H2].
  split; [apply plain_checked; exact H1|]. intros k v I. rewrite forallb_forall in H2. specialize (H2 _ I).
  cbn [fst snd] in H2. apply andb_true_iff in H2. destruct H2 as [H2 H3]. split; [apply plain_checked; exact H2|].
  intros s ->. apply andb_true_iff in H3. destruct H3 as [H3 H4]. split; [apply plain_checked; exact H3|].
  apply existsb_exists in H4. destruct H4 as [w [Iw E]]. apply String.eqb_eq in E. subst w.
  unfold words_are_words in W. rewrite Forall_forall in W. apply W. exact Iw.
Qed.
Lemma generators_checked F l : words_are_words F -> forallb generator_check l = true -> Forall (plain_generator F) l.
Proof. intros W H. rewrite forallb_forall in H. apply Forall_forall. intros g I. apply generator_checked; auto. Qed.

Lemma levels_checked F L : words_are_words F ->
  forallb generator_check (lv_pricing L ++ lv_impressions L ++ lv_overlap L) = true -> plain_levels F L.
Proof.
  intros W H. rewrite !forallb_app in H. apply andb_true_iff in H. destruct H as [H1 H]. apply andb_true_iff in H.
  destruct H as [H2 H3]. repeat split; apply generators_checked; assumption.
Qed.

(** ** Checking feasibility *)

Definition sizes_check (n N : Z) (r : number) : bool :=
  (1 <=? n) && (1 <=? N) && (negb (Qle_bool (number_Q r) 0)) && Qle_bool (number_Q r) 1 &&
  ((n <=? 1) || negb (Qle_bool ((999 # 1000) * (inject_Z N * number_Q r)) (inject_Z (n - 1)))).
Lemma neg_le a b : negb (Qle_bool a b) = true -> (b < a)%Q.
Proof. intros H. apply Qnot_le_lt. intros X. apply Qle_bool_iff in X. rewrite X in H. discriminate. Qed.

Lemma sizes_checked n N r : sizes_check n N r = true ->
  1 <= n /\ 1 <= N /\ (0 < number_Q r <= 1)%Q /\
  (2 <= n -> (inject_Z (n - 1) < (999 # 1000) * (inject_Z N * number_Q r))%Q).
Proof.
  unfold sizes_check. rewrite !andb_true_iff. intros [[[[H1 H2] H3] H4] H5].
  apply neg_le in H3. apply Qle_bool_iff in H4. split; [lia|]. split; [lia|]. split; [split; assumption|].
  intros X. apply orb_true_iff in H5. destruct H5 as [H5|H5]; [lia|]. apply neg_le. exact H5.
Qed.

Lemma combination_feasible L :
  forallb (fun n => forallb (fun N => forallb (sizes_check n N) (lv_ratio L)) (lv_largest L)) (lv_num_publishers L) = true ->
  Forall usable_pricing (lv_pricing L) -> Forall usable_impressions (lv_impressions L) ->
  forall p, fp_num_publishers p = fp_num_publishers p ->
  In (fp_num_publishers p) (lv_num_publishers L) -> In (fp_largest p) (lv_largest L) ->
  In (fp_ratio p) (lv_ratio L) -> In (fp_pricing p) (lv_pricing L) -> In (fp_impressions p) (lv_impressions L) ->
  usable_overlap (fp_num_publishers p = 1 \/ (number_Q (fp_ratio p) == 1)%Q) (fp_largest p) (fp_overlap p) ->
  feasible p.
Proof.
  intros Sz Up Ui p _ I1 I2 I3 I4 I5 Uo. rewrite forallb_forall in Sz. specialize (Sz _ I1).
  rewrite forallb_forall in Sz. specialize (Sz _ I2). rewrite forallb_forall in Sz. specialize (Sz _ I3).
  apply sizes_checked in Sz. destruct Sz as [A [B [C D]]]. rewrite Forall_forall in Up, Ui.
  repeat (split; [solve [assumption | auto]|]). exact Uo.
Qed.

Lemma usable_overlap_weaken (A B : Prop) n g : (A -> B) -> usable_overlap A n g -> usable_overlap B n g.
Proof.
  unfold usable_overlap. intros H [X|[X|[C [Ar [[o [Io Ho]] R]]]]]; [left; exact X|right; left; exact X|].
  right. right. split; [exact C|]. split; [exact Ar|]. split; [|exact R]. exists o. split; [exact Io|].
  destruct Ho as [Ho|[Ho Ha]]; [left; exact Ho|right; auto].
Qed.

Lemma workable_levels F L : words_are_words F ->
  forallb generator_check (lv_pricing L ++ lv_impressions L ++ lv_overlap L) = true ->
  forallb (fun n => forallb (fun N => forallb (sizes_check n N) (lv_ratio L)) (lv_largest L)) (lv_num_publishers L) = true ->
  Forall usable_pricing (lv_pricing L) -> Forall usable_impressions (lv_impressions L) ->
  (forall N g, In N (lv_largest L) -> In g (lv_overlap L) -> usable_overlap False N g) -> workable F L.
Proof.
  intros W G Sz Up Ui Uo. split; [apply levels_checked; assumption|].
  intros p [_ [_ [I1 [I2 [I3 [I4 [I5 I6]]]]]]]. apply (combination_feasible L); auto.
  apply (usable_overlap_weaken False); [intros []|]. apply Uo; assumption.
Qed.

(** ** Generators of the shipped designs *)

Ltac given_once := repeat constructor; cbn [In]; intuition discriminate.
Ltac args := split; [cbn [map fst gn_params]; given_once|cbn [map fst gn_params In]; intuition].

Lemma fixed_ok name q : usable_pricing (gen name CFixedPrice [("cost_per_impression"%string, fl q)]).
Proof. split; [reflexivity|]. split; [args|]. exists q, (PFloat q). split; [left; reflexivity|reflexivity]. Qed.
Lemma homogeneous_ok q : (0 <= q <= 1000000000)%Q -> usable_impressions (homogeneous q).
Proof.
  intros H. left. split; [reflexivity|]. split; [args|]. exists q. split; [|exact H].
  exists (PFloat q). split; [left; reflexivity|reflexivity].
Qed.
Lemma heterogeneous_ok a (n : number) : (0 <= a <= 1000)%Q -> (0 <= number_Q n <= 1000)%Q ->
  usable_impressions (heterogeneous a (VNum n)).
Proof.
  intros H H'. right. left. split; [reflexivity|]. split; [args|]. split; intros v [E|[E|[]]]; inversion E; subst.
  - exists (PFloat a). split; [reflexivity|exact H].
  - exists n. split; [reflexivity|exact H'].
Qed.
Lemma heavy_ok s : (1 < s)%Q -> usable_impressions (heavy_tailed s).
Proof.
  intros H. right. right. split; [reflexivity|]. split; [args|]. intros v [E|[]]. inversion E; subst.
  exists (PFloat s). split; [reflexivity|exact H].
Qed.
Lemma full_ok (A : Prop) N : usable_overlap A N full_overlap.
Proof. left. split; reflexivity. Qed.
Lemma independent_ok (A : Prop) N u seed : N <= u -> usable_overlap A N (independent u seed).
Proof.
  intros H. right. left. split; [reflexivity|]. split; [args|]. split.
  - exists u. split; [left; reflexivity|exact H].
  - right. left. reflexivity.
Qed.
Lemma sequential_ok (A : Prop) N name order sets q seed :
  (order = "original" \/ ((order = "reversed" \/ order = "random") /\ A))%string ->
  (sets = "all" \/ sets = "one")%string -> (0 <= q <= 1)%Q ->
  usable_overlap A N (sequential name order sets q seed).
Proof.
  intros H1 H2 H3. right. right. split; [reflexivity|]. split; [args|]. split; [|split].
  - exists order. split; [left; reflexivity|exact H1].
  - exists sets. split; [right; left; reflexivity|exact H2].
  - exists q. split; [|exact H3]. exists (PFloat q). split; [right; right; left; reflexivity|reflexivity].
Qed.

Ltac impressions := repeat (apply Forall_cons; [first
  [ apply homogeneous_ok; split; vm_compute; discriminate
  | apply heterogeneous_ok; split; vm_compute; discriminate
  | apply heavy_ok; vm_compute; reflexivity ]|]); apply Forall_nil.

Lemma simple_workable F : words_are_words F -> workable F simple_levels.
Proof.
  intros W. apply workable_levels; [exact W|reflexivity|reflexivity| | |].
  - apply Forall_cons; [apply fixed_ok|constructor].
  - apply Forall_cons; [|constructor]. apply homogeneous_ok. split; vm_compute; discriminate.
  - intros N g _ [<-|[]]. apply full_ok.
Qed.

Lemma analysis_workable F : words_are_words F -> workable F analysis_levels.
Proof.
  intros W. apply workable_levels; [exact W|reflexivity|reflexivity| | |].
  - apply Forall_cons; [apply fixed_ok|constructor].
  - cbn [analysis_levels lv_impressions]. impressions.
  - intros N g IN [<-|[<-|[<-|[]]]]; [apply full_ok|apply independent_ok|apply sequential_ok; auto; split; vm_compute; discriminate].
    cbn in IN. intuition lia.
Qed.

Lemma single_publisher_workable F : words_are_words F -> workable F single_publisher_levels.
Proof.
  intros W. apply workable_levels; [exact W|reflexivity|reflexivity| | |].
  - apply Forall_cons; [apply fixed_ok|constructor].
  - cbn [single_publisher_levels lv_impressions]. impressions.
  - intros N g IN [<-|[]]. apply full_ok.
Qed.

Lemma lhs_example_workable F : words_are_words F -> workable F lhs_example_levels.
Proof.
  intros W. apply workable_levels; [exact W|reflexivity|reflexivity| | |].
  - apply Forall_cons; [apply fixed_ok|constructor].
  - cbn [lhs_example_levels lv_impressions]. impressions.
  - intros N g IN [<-|[<-|[<-|[]]]]; [apply full_ok|apply independent_ok|apply sequential_ok; auto; split; vm_compute; discriminate].
    cbn in IN. intuition lia.
Qed.

(** The M3 design, apart from the overlaps. *)
Lemma m3_sizes : forallb (fun n => forallb (fun N => forallb (sizes_check n N) (lv_ratio m3_levels)) (lv_largest m3_levels)) (lv_num_publishers m3_levels) = true.
Proof. reflexivity. Qed.
Lemma m3_pricing_ok : Forall usable_pricing (lv_pricing m3_levels).
Proof. apply Forall_cons; [apply fixed_ok|constructor]. Qed.
Lemma m3_impressions_ok : Forall usable_impressions (lv_impressions m3_levels).
Proof. cbn [m3_levels lv_impressions]. impressions. Qed.

(** ** Different levels *)

Definition value_same_check (a b : value) : bool :=
  match a, b with
  | VNum (PInt x), VNum (PInt y) => x =? y
  | VNum (PFloat x), VNum (PFloat y) => Qeq_bool x y
  | VStr x, VStr y => String.eqb x y
  | VBool x, VBool y => Bool.eqb x y
  | _, _ => false
  end.
Fixpoint kwargs_same_check (a b : kwargs) : bool :=
  match a, b with
  | [], [] => true
  | (k, v) :: a', (k', v') :: b' => String.eqb k k' && value_same_check v v' && kwargs_same_check a' b'
  | _, _ => false
  end.
Lemma value_same_checked a b : same_value a b -> value_same_check a b = true.
Proof.
  destruct a as [[x|x]|x|x], b as [[y|y]|y|y]; cbn; try (intros []; fail).
  - intros ->. apply Z.eqb_refl.
  - intros H. apply Qeq_bool_iff. exact H.
  - intros ->. apply String.eqb_refl.
  - intros ->. destruct y; reflexivity.
Qed.
Lemma kwargs_same_checked a b : same_kwargs a b -> kwargs_same_check a b = true.
Proof.
  unfold same_kwargs. intros H. induction H as [|[k v] [k' v'] l l' [H1 H2] H IH]; [reflexivity|].
  cbn [fst snd] in *. cbn [kwargs_same_check]. subst k'. rewrite String.eqb_refl, (value_same_checked _ _ H2), IH. reflexivity.
Qed.
Definition generator_same_check (a b : generator_parameters) : bool :=
  String.eqb (gn_name a) (gn_name b) && kwargs_same_check (gn_params a) (gn_params b).
Lemma generator_same_checked a b : same_generator a b -> generator_same_check a b = true.
Proof. intros [H1 H2]. unfold generator_same_check. rewrite H1, String.eqb_refl. apply kwargs_same_checked. exact H2. Qed.

Fixpoint all_apart {A} (same : A -> A -> bool) (l : list A) : bool :=
  match l with [] => true | a :: r => forallb (fun b => negb (same a b)) r && all_apart same r end.
Lemma all_apart_different {A} (same : A -> A -> Prop) (chk : A -> A -> bool) l :
  (forall a b, same a b -> same b a) -> (forall a b, same a b -> chk a b = true) ->
  all_apart chk l = true -> pairwise_different same l.
Proof.
  intros Sym Chk H. apply apart_pairwise; [exact Sym|]. unfold apart.
  induction l as [|a l IH]; [constructor|]. cbn [all_apart] in H. apply andb_true_iff in H. destruct H as [H1 H2].
  constructor; [|apply IH; exact H2]. apply Forall_forall. intros b Ib Sm. rewrite forallb_forall in H1. specialize (H1 b Ib).
  rewrite (Chk _ _ Sm) in H1. discriminate.
Qed.
Definition number_same_check (a b : number) : bool := value_same_check (VNum a) (VNum b).
Lemma number_same_checked a b : same_number a b -> number_same_check a b = true.
Proof. apply (value_same_checked (VNum a) (VNum b)). Qed.

Definition levels_apart (L : levels) : bool :=
  all_apart Z.eqb (lv_num_publishers L) && all_apart Z.eqb (lv_largest L) &&
  all_apart number_same_check (lv_ratio L) && all_apart generator_same_check (lv_pricing L) &&
  all_apart generator_same_check (lv_impressions L) && all_apart generator_same_check (lv_overlap L).
Lemma Z_distinct l : all_apart Z.eqb l = true -> NoDup l.
Proof.
  induction l as [|a l IH]; intros H; [constructor|]. cbn [all_apart] in H. apply andb_true_iff in H. destruct H as [H1 H2].
  constructor; [|auto]. intros I. rewrite forallb_forall in H1. specialize (H1 a I). rewrite Z.eqb_refl in H1. discriminate.
Qed.
Lemma levels_apart_different L : levels_apart L = true -> different_levels L.
Proof.
  unfold levels_apart. rewrite !andb_true_iff. intros [[[[[H1 H2] H3] H4] H5] H6].
  split; [apply Z_distinct; exact H1|]. split; [apply Z_distinct; exact H2|].
  split; [apply (all_apart_different _ number_same_check); auto using same_number_sym, number_same_checked|].
  repeat split; apply (all_apart_different _ generator_same_check); auto using same_generator_sym, generator_same_checked.
Qed.

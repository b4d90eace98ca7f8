(** Runners of the same trials at the same time: an invariant of all schedules. *)
From Coq Require Import String Ascii.
From Verif Require Import Prelude ModelReachPoint ModelAggregator ModelFiles SpecFiles FilesLemmas FilesLemmas2 ModelDriver SpecDriver
  DriverLemmas2 ModelTogether SpecTogether TogetherLemmas.
Open Scope nat_scope.

(** ** Saving a file *)

Inductive stage : Type := Dirs (n : nat) | Writing (o : nat).

Section Saving.
Context {A : Type}.
Variables (p : path) (c : text) (tl : list effect) (k : result unit -> prog A).
Definition height : nat := length (snd (parent p)).
Definition dirs_from (n : nat) : list effect := map (fun m => Plain (MkDir (prefix (parent p) m))) (seq n (S height - n)).
Definition appends (c : text) : list effect := map (fun x => Plain (Append p x)) c.
Definition saving (x : stage) : prog A :=
  match x with
  | Dirs n => acts (dirs_from n ++ Plain (Truncate p) :: appends c ++ tl) k
  | Writing o => acts (appends (skipn o c) ++ tl) k
  end.
Lemma save_saving : acts (save p c ++ tl) k = saving (Dirs 1).
Proof.
  unfold saving. f_equal. unfold save, dirs_from, mkdir_ops, write_file_ops, appends, height. rewrite map_app. cbn [map app].
  rewrite !map_map, <- app_assoc. replace (S (length (snd (parent p))) - 1) with (length (snd (parent p))) by lia. reflexivity.
Qed.
Lemma saving_dir n : n <= height -> saving (Dirs n) = Act (Plain (MkDir (prefix (parent p) n)))
  (fun x => match x with Ok _ => saving (Dirs (S n)) | Err y => k (Err y) end).
Proof.
  intros H. unfold saving, dirs_from. replace (S height - n) with (S (S height - S n)) by lia. reflexivity.
Qed.
Lemma saving_open : saving (Dirs (S height)) = Act (Plain (Truncate p))
  (fun x => match x with Ok _ => saving (Writing 0) | Err y => k (Err y) end).
Proof. unfold saving, dirs_from. rewrite Nat.sub_diag. reflexivity. Qed.
Lemma skipn_cons o x : nth_error c o = Some x -> skipn o c = x :: skipn (S o) c.
Proof. revert o. induction c as [|a l IH]; intros [|o] H; cbn [nth_error] in H; try discriminate H; [injection H as ->; reflexivity|]. exact (IH o H). Qed.
Lemma saving_write o x : nth_error c o = Some x -> saving (Writing o) = Act (Plain (Append p x))
  (fun x => match x with Ok _ => saving (Writing (S o)) | Err y => k (Err y) end).
Proof. intros H. unfold saving. rewrite (skipn_cons _ _ H). reflexivity. Qed.
Lemma saving_end : saving (Writing (length c)) = acts tl k.
Proof. unfold saving. rewrite skipn_all. reflexivity. Qed.
End Saving.

Section Run.
Variables (L : lab) (seed : Z) (ts : list trial) (rows : trial -> list (string * cell)) (rs : list (runner L)) (s0 : shared).
Notation out := (out_of L). Notation pend := (pending_path L).
Notation answer := (result table * generators L)%type.
Hypothesis Sep : separate L ts.
Hypothesis Agreed : agreed L seed ts rows rs.

Definition whole (t : trial) : text := lab_print L [rows t].
Definition marker (r : runner L) : text := pending_text L (ru_trial r) (ru_now r).
Definition after (r : runner L) : generators L := snd (compute_row L (ru_trial r) seed (ru_generators r)).

Inductive phase : Type := Begin | Found | Refused | Mark (x : stage) | Save (x : stage) | Done (a : answer).

Definition save_k (r : runner L) : result unit -> prog answer :=
  fun x => match x with Err e => Ret (Err e, after r) | Ok _ => Ret (Ok [rows (ru_trial r)], after r) end.
Definition mark_k (r : runner L) : result unit -> prog answer := fun x =>
  match x with
  | Err e => Ret (Err e, ru_generators r)
  | Ok _ =>
      match compute_row L (ru_trial r) seed (ru_generators r) with
      | (Err e, g') => Ret (Err e, g')
      | (Ok row, g') =>
          acts (save (out (ru_trial r)) (lab_print L [row]) ++ [Unlink (pend (ru_trial r)) true]) (fun r =>
          match r with
          | Err e => Ret (Err e, g')
          | Ok _ => Ret (Ok [row], g')
          end)
      end
  end.
Definition marking (r : runner L) := saving (pend (ru_trial r)) (marker r) [] (mark_k r).
Definition writing (r : runner L) := saving (out (ru_trial r)) (whole (ru_trial r)) [Unlink (pend (ru_trial r)) true] (save_k r).
Definition refused (r : runner L) : prog answer :=
  Act (Unlink (out (ru_trial r)) false) (fun x => match x with
    | Err e => Ret (Err e, ru_generators r) | Ok _ => marking r (Dirs 1) end).
Definition found (r : runner L) : prog answer :=
  Look (out (ru_trial r)) (fun n' =>
    match (match n' with Some (File c) => lab_parse L c | Some Dir => Err OtherError | None => Err FileNotFoundError end) with
    | Ok tb => Ret (Ok tb, ru_generators r)
    | Err _ => refused r
    end).
Definition begin (r : runner L) : prog answer :=
  Look (out (ru_trial r)) (fun n => match n with Some (File _) => found r | _ => marking r (Dirs 1) end).
Definition prog_of (r : runner L) (ph : phase) : prog answer :=
  match ph with
  | Begin => begin r
  | Found => found r
  | Refused => refused r
  | Mark x => marking r x
  | Save x => writing r x
  | Done a => Ret a
  end.

Lemma recompute_marking r : recompute L (ru_trial r) seed (ru_now r) (ru_generators r) = marking r (Dirs 1).
Proof. unfold marking. rewrite <- save_saving, app_nil_r. reflexivity. Qed.
Lemma evaluate_begin r : evaluate L (ru_trial r) seed (ru_now r) (ru_generators r) = begin r.
Proof. unfold evaluate, begin, found, refused. rewrite recompute_marking. reflexivity. Qed.
Lemma mark_writing r : In r rs -> mark_k r (Ok tt) = writing r (Dirs 1).
Proof.
  intros H. destruct (Agreed r H) as [_ E]. unfold mark_k, writing. rewrite <- save_saving. unfold save_k, after, whole.
  destruct (compute_row L (ru_trial r) seed (ru_generators r)) as [x g']. cbn [fst] in E. subst x. reflexivity.
Qed.
Lemma marker_nonempty r : 0 < length (marker r).
Proof. unfold marker, pending_text. rewrite app_length. cbn [length]. lia. Qed.

(** ** The runners *)

Definition states : Type := list (option handle * phase).
Definition concrete (xs : states) : list (process answer) :=
  map (fun rx => (fst (snd rx), prog_of (fst rx) (snd (snd rx)))) (combine rs xs).

Lemma nth_combine_both {X Y} (l : list X) (l' : list Y) j z : nth_error (combine l l') j = Some z <->
  nth_error l j = Some (fst z) /\ nth_error l' j = Some (snd z).
Proof.
  revert l' j. induction l as [|a l IH]; intros [|b l'] [|j]; cbn [combine nth_error]; try (split; [discriminate|intros [C1 C2]; discriminate]).
  - split; [intros E; injection E as <-; auto|]. intros [E1 E2]. destruct z. cbn [fst snd] in *. congruence.
  - apply IH.
Qed.
Lemma concrete_nth xs j y : nth_error (concrete xs) j = Some y <->
  exists r h ph, nth_error rs j = Some r /\ nth_error xs j = Some (h, ph) /\ y = (h, prog_of r ph).
Proof.
  unfold concrete. rewrite nth_error_map. destruct (nth_error (combine rs xs) j) as [[r [h ph]]|] eqn:E; cbn [option_map].
  - apply nth_combine_both in E. cbn [fst snd] in *. destruct E as [E1 E2]. split.
    + intros H. injection H as <-. eauto 6.
    + intros [r' [h' [ph' [H1 [H2 ->]]]]]. rewrite E1 in H1. rewrite E2 in H2. injection H1 as <-. injection H2 as <- <-. reflexivity.
  - split; [discriminate|]. intros [r [h [ph [H1 [H2 _]]]]].
    assert (C : nth_error (combine rs xs) j = Some (r, (h, ph))) by (apply nth_combine_both; auto). congruence.
Qed.
Lemma concrete_set xs j r h ph : nth_error rs j = Some r ->
  concrete (set_nth j (h, ph) xs) = set_nth j (h, prog_of r ph) (concrete xs).
Proof.
  unfold concrete. generalize rs. intros l. revert j xs. induction l as [|a l IH]; intros [|j] [|x xs] H; cbn [nth_error] in H; try discriminate H; cbn [set_nth combine map]; try reflexivity.
  - injection H as ->. reflexivity.
  - f_equal. exact (IH j xs H).
Qed.
Lemma set_same {X} j (x : X) l : nth_error l j = Some x -> set_nth j x l = l.
Proof. revert j. induction l as [|a l IH]; intros [|j] H; cbn [nth_error] in H; try discriminate H; cbn [set_nth]; [congruence|]. f_equal. exact (IH j H). Qed.

Definition Ex (t : trial) (xs : states) (K : runner L -> option handle -> phase -> Prop) : Prop :=
  exists j r h ph, nth_error rs j = Some r /\ ru_trial r = t /\ nth_error xs j = Some (h, ph) /\ K r h ph.
Definition Al (t : trial) (xs : states) (K : runner L -> option handle -> phase -> Prop) : Prop :=
  forall j r h ph, nth_error rs j = Some r -> ru_trial r = t -> nth_error xs j = Some (h, ph) -> K r h ph.

Section Move.
Variables (xs : states) (j : nat) (r : runner L) (h : option handle) (ph : phase).
Hypothesis Hr : nth_error rs j = Some r.
Hypothesis Hx : nth_error xs j = Some (h, ph).
Variables (h' : option handle) (ph' : phase).
Notation xs' := (set_nth j (h', ph') xs).
Lemma new_nth : nth_error xs' j = Some (h', ph').
Proof. apply nth_error_set_same. apply nth_error_Some. congruence. Qed.
Lemma Ex_here (K : runner L -> option handle -> phase -> Prop) : K r h' ph' -> Ex (ru_trial r) xs' K.
Proof. intros H. exists j, r, h', ph'. split; [exact Hr|]. split; [reflexivity|]. split; [exact new_nth|exact H]. Qed.
Lemma Ex_move t (K : runner L -> option handle -> phase -> Prop) : Ex t xs K ->
  (ru_trial r = t -> K r h ph -> K r h' ph') -> Ex t xs' K.
Proof.
  intros [j' [r' [h1 [ph1 [H1 [H2 [H3 H4]]]]]]] M. destruct (Nat.eq_dec j j') as [E|N]; [rewrite <- E in H1, H3|].
  - assert (r' = r) by congruence. assert (h1 = h) by congruence. assert (ph1 = ph) by congruence. subst r' h1 ph1. rewrite <- H2.
    apply Ex_here. apply M; auto.
  - exists j', r', h1, ph1. rewrite nth_error_set_other by exact N. auto.
Qed.
Lemma Al_move t (K : runner L -> option handle -> phase -> Prop) : Al t xs K -> (ru_trial r = t -> K r h' ph') -> Al t xs' K.
Proof.
  intros H M j' r' h1 ph1 H1 H2 H3. destruct (Nat.eq_dec j j') as [<-|N].
  - rewrite new_nth in H3. injection H3 as <- <-. assert (r' = r) by congruence. subst r'. exact (M H2).
  - rewrite nth_error_set_other in H3 by exact N. exact (H j' r' h1 ph1 H1 H2 H3).
Qed.
End Move.

(** ** The invariant *)

Definition is_working (ph : phase) : Prop := match ph with Mark _ | Save _ => True | _ => False end.
Definition is_opening (ph : phase) : Prop := match ph with Begin | Mark _ | Save (Dirs _) => True | _ => False end.
Definition is_looking (ph : phase) : Prop := match ph with Found | Refused => True | _ => False end.
Definition is_open (ph : phase) : Prop := match ph with Save (Writing _) => True | _ => False end.

Definition fits (s : shared) (tags : list path) (r : runner L) (h : option handle) (ph : phase) : Prop :=
  let t := ru_trial r in
  match ph with
  | Mark (Dirs n) => 1 <= n <= S (height (pend t)) /\ forall m, m < n -> seen s (prefix (parent (pend t)) m) = Some Dir
  | Mark (Writing o) => o < length (marker r) /\ exists i o', h = Some {| h_path := pend t; h_file := i; h_offset := o' |} /\ nth_error tags i = Some (pend t)
  | Save (Dirs n) => 1 <= n <= S (height (out t)) /\ forall m, m < n -> seen s (prefix (parent (out t)) m) = Some Dir
  | Save (Writing o) => o <= length (whole t) /\ exists i, h = Some {| h_path := out t; h_file := i; h_offset := o |} /\ nth_error tags i = Some (out t)
  | _ => True
  end.

Definition calm_phase (r : runner L) (ph : phase) : Prop :=
  let t := ru_trial r in
  match ph with
  | Begin => True
  | Found => seen s0 (out t) <> None
  | Refused => seen s0 (out t) <> None /\ unreadable L t s0
  | Done a => exists tb, readable L t s0 tb /\ a = (Ok tb, ru_generators r)
  | _ => False
  end.
Notation three := (three_runners rs).
Definition good_answer (r : runner L) (a : answer) : Prop :=
  a = (Ok [rows (ru_trial r)], after r) \/ 
  (a = (Err FileNotFoundError, ru_generators r) /\ (seen s0 (out (ru_trial r)) = None -> three (ru_trial r))) \/
  exists c tb, patchy c (whole (ru_trial r)) /\ lab_parse L c = Ok tb /\ a = (Ok tb, ru_generators r).

(** Nothing has happened to the files of the trial. *)
Definition calm (t : trial) (s : shared) (xs : states) : Prop :=
  seen s (out t) = seen s0 (out t) /\ seen s (pend t) = seen s0 (pend t) /\ Al t xs (fun r _ ph => calm_phase r ph).
Definition will_write (t : trial) (i k : nat) : runner L -> option handle -> phase -> Prop :=
  fun _ h ph => exists o, ph = Save (Writing o) /\ h = Some {| h_path := out t; h_file := i; h_offset := o |} /\ o <= k.
Record stirred (t : trial) (s : shared) (tags : list path) (xs : states) : Prop := {
  sr_unreadable : unreadable L t s0;
  sr_parts : forall i, nth_error tags i = Some (out t) -> patchy (nth i (sh_files s) []) (whole t) /\
    forall k, k < length (whole t) -> nth_error (nth i (sh_files s) []) k = nth_error (whole t) k \/ Ex t xs (will_write t i k);
  sr_missing : sh_names s (out t) = None -> Ex t xs (fun _ _ ph => is_opening ph);
  sr_lost : sh_names s (out t) = None -> seen s0 (out t) = None -> Al t xs (fun _ _ ph => is_looking ph -> three t);
  sr_answers : Al t xs (fun r _ ph => forall a, ph = Done a -> good_answer r a);
  sr_someone : Ex t xs (fun r _ ph => is_working ph \/ ph = Done (Ok [rows t], after r));
  sr_marker : sh_names s (pend t) <> None -> Ex t xs (fun _ _ ph => is_working ph) }.
Definition trial_inv (t : trial) (s : shared) (tags : list path) (xs : states) : Prop := calm t s xs \/ stirred t s tags xs.

Record Inv (s : shared) (tags : list path) (xs : states) : Prop := {
  iv_length : length xs = length rs;
  iv_struct : struct L ts s0 s tags;
  iv_fits : forall j r h ph, nth_error rs j = Some r -> nth_error xs j = Some (h, ph) -> fits s tags r h ph;
  iv_trials : forall t, In t ts -> trial_inv t s tags xs }.

Lemma in_nth {X} (l : list X) j x : nth_error l j = Some x -> In x l.
Proof. apply nth_error_In. Qed.
Lemma trial_in r j : nth_error rs j = Some r -> In (ru_trial r) ts.
Proof. intros H. apply (Agreed r). eapply nth_error_In. exact H. Qed.
Lemma paths t t' : In t ts -> In t' ts -> (out t = out t' -> t = t') /\ (pend t = pend t' -> t = t') /\ out t <> pend t'.
Proof.
  intros H H'. pose proof (sep_trial L ts Sep t H) as [_ [_ [D _]]].
  destruct (In_nth_error _ _ H) as [i Hi]. destruct (In_nth_error _ _ H') as [i' Hi'].
  destruct (Nat.eq_dec i i') as [->|N].
  - assert (t' = t) by congruence. subst t'. auto.
  - destruct (sep_other L ts Sep i i' t t' Hi Hi' N) as [A [B [C E]]]. split; [intros X; contradiction|]. split; [intros X; contradiction|exact C].
Qed.

Lemma trial_frame p s tags s' tags' xs j r h ph h' ph' t : In t ts -> nth_error rs j = Some r -> nth_error xs j = Some (h, ph) ->
  changed p s tags s' tags' -> p <> out t -> p <> pend t -> ru_trial r <> t ->
  trial_inv t s tags xs -> trial_inv t s' tags' (set_nth j (h', ph') xs).
Proof.
  intros Ht Hr Hx C No Np Nt H. destruct (sep_trial L ts Sep t Ht) as [Ro [Rp _]].
  assert (MV : forall K, Ex t xs K -> Ex t (set_nth j (h', ph') xs) K).
  { intros K HK. eapply Ex_move; [exact Hr|exact Hx|exact HK|]. intros X. contradiction. }
  assert (MA : forall K, Al t xs K -> Al t (set_nth j (h', ph') xs) K).
  { intros K HK. eapply Al_move; [exact Hr|exact Hx|exact HK|]. intros X. contradiction. }
  destruct H as [[C1 [C2 C3]]|[S1 S2 S3 SL S4 S5 S6]]; [left|right].
  - split; [rewrite (ch_seen _ _ _ _ _ C) by congruence; exact C1|]. split; [rewrite (ch_seen _ _ _ _ _ C) by congruence; exact C2|]. apply MA. exact C3.
  - constructor; auto.
    + intros i Hi. destruct (ch_files _ _ _ _ _ C i (out t) ltac:(congruence) Ro Hi) as [Hi' ->].
      destruct (S2 i Hi') as [P W]. split; [exact P|]. intros k Hk. destruct (W k Hk) as [E|E]; auto.
    + rewrite (ch_names _ _ _ _ _ C) by congruence. auto.
    + rewrite (ch_names _ _ _ _ _ C) by congruence. auto.
    + rewrite (ch_names _ _ _ _ _ C) by congruence. auto.
Qed.

Lemma fits_frame p s tags s' tags' r h ph : In (ru_trial r) ts -> changed p s tags s' tags' ->
  (forall i q, nth_error tags i = Some q -> nth_error tags' i = Some q \/ (q = out (ru_trial r) /\ ~ is_open ph) \/ (q <> out (ru_trial r) /\ q <> pend (ru_trial r))) ->
  fits s tags r h ph -> fits s' tags' r h ph.
Proof.
  intros Hr C T H. pose proof (paths _ _ Hr Hr) as [_ [_ D]].
  destruct ph as [| | |[n|o]|[n|o]|a]; cbn [fits] in *; try exact I.
  - destruct H as [H1 H2]. split; [exact H1|]. intros m Hm. apply (ch_dirs _ _ _ _ _ C). auto.
  - destruct H as [H1 [i [o' [H2 H3]]]]. split; [exact H1|]. exists i, o'. split; [exact H2|].
    destruct (T _ _ H3) as [X|[[X _]|[_ X]]]; [exact X|symmetry in X; contradiction|contradiction X; reflexivity].
  - destruct H as [H1 H2]. split; [exact H1|]. intros m Hm. apply (ch_dirs _ _ _ _ _ C). auto.
  - destruct H as [H1 [i [H2 H3]]]. split; [exact H1|]. exists i. split; [exact H2|].
    destruct (T _ _ H3) as [X|[[_ X]|[X _]]]; [exact X|contradiction X; exact I|contradiction X; reflexivity].
Qed.

(** Putting a step together. *)
Lemma Inv_step p s tags s' tags' xs j r h ph h' ph' : Inv s tags xs -> nth_error rs j = Some r -> nth_error xs j = Some (h, ph) ->
  struct L ts s0 s' tags' -> changed p s tags s' tags' ->
  (p = out (ru_trial r) \/ p = pend (ru_trial r) \/ dir_path L ts p) ->
  (forall i q, nth_error tags i = Some q -> nth_error tags' i = Some q \/
     (q = out (ru_trial r) /\ Al (ru_trial r) xs (fun _ _ ph => ~ is_open ph))) ->
  fits s' tags' r h' ph' -> trial_inv (ru_trial r) s' tags' (set_nth j (h', ph') xs) ->
  Inv s' tags' (set_nth j (h', ph') xs).
Proof.
  intros V Hr Hx S C P T F TI. pose proof (trial_in _ _ Hr) as Ht. destruct V as [V1 V2 V3 V4]. constructor.
  - rewrite set_length. exact V1.
  - exact S.
  - intros j1 r1 h1 ph1 H1 H2. destruct (Nat.eq_dec j j1) as [<-|N].
    + rewrite (new_nth xs j h ph Hx) in H2. injection H2 as <- <-. assert (r1 = r) by congruence. subst r1. exact F.
    + rewrite nth_error_set_other in H2 by exact N. eapply fits_frame; [exact (trial_in _ _ H1)|exact C| |exact (V3 _ _ _ _ H1 H2)].
      intros i q Hi. destruct (T i q Hi) as [X|[-> X]]; [left; exact X|]. right.
      destruct (path_eqb (out (ru_trial r)) (out (ru_trial r1))) eqn:E.
      * apply path_eqb_spec in E. left. split; [exact E|]. apply (paths _ _ Ht (trial_in _ _ H1)) in E. exact (X j1 r1 h1 ph1 H1 (eq_sym E) H2).
      * apply path_eqb_neq in E. right. split; [exact E|]. apply (paths _ _ Ht (trial_in _ _ H1)).
  - intros t Hin. destruct (path_eqb (out (ru_trial r)) (out t)) eqn:E.
    + apply path_eqb_spec in E. apply (paths _ _ Ht Hin) in E. subst t. exact TI.
    + apply path_eqb_neq in E. assert (Nt : ru_trial r <> t) by congruence.
      eapply trial_frame; [exact Hin|exact Hr|exact Hx|exact C| | |exact Nt|exact (V4 t Hin)].
      * intros X. destruct P as [P|[P|P]]; [congruence| |]; subst p.
        -- symmetry in X. exact (proj2 (proj2 (paths _ _ Hin Ht)) X).
        -- apply (file_not_dir L ts Sep (out t)); [exists t; auto|exact P].
      * intros X. destruct P as [P|[P|P]]; subst p.
        -- exact (proj2 (proj2 (paths _ _ Ht Hin)) X).
        -- apply Nt. exact (proj1 (proj2 (paths _ _ Ht Hin)) X).
        -- apply (file_not_dir L ts Sep (pend t)); [exists t; auto|exact P].
Qed.

(** ** One step *)

Section Step.
Variables (s : shared) (tags : list path) (xs : states) (j : nat) (r : runner L) (h : option handle) (ph : phase).
Hypothesis V : Inv s tags xs.
Hypothesis Hr : nth_error rs j = Some r.
Hypothesis Hx : nth_error xs j = Some (h, ph).
Notation t := (ru_trial r).

Lemma t_in : In t ts. Proof. exact (trial_in _ _ Hr). Qed.
Lemma out_file : file_path L ts (out t). Proof. exists t. split; [exact t_in|left; reflexivity]. Qed.
Lemma pend_file : file_path L ts (pend t). Proof. exists t. split; [exact t_in|right; reflexivity]. Qed.
Lemma out_root : snd (out t) <> []. Proof. exact (file_nonroot L ts Sep _ out_file). Qed.
Lemma pend_root : snd (pend t) <> []. Proof. exact (file_nonroot L ts Sep _ pend_file). Qed.
Lemma out_pend : out t <> pend t. Proof. apply (paths _ _ t_in t_in). Qed.

Lemma stir s' tags' h' x : calm t s xs -> unreadable L t s0 -> (forall i, nth_error tags' i <> Some (out t)) ->
  stirred t s' tags' (set_nth j (h', Mark x) xs).
Proof.
  intros [C1 [C2 C3]] U T. constructor.
  - exact U.
  - intros i H. contradiction (T i H).
  - intros _. apply (Ex_here xs j r h ph Hr Hx). exact I.
  - intros _ N. apply (Al_move xs j r h ph Hr Hx).
    + intros j1 r1 h1 ph1 H1 H2 H3 K. specialize (C3 j1 r1 h1 _ H1 H2 H3). rewrite <- H2 in N. destruct ph1; try contradiction.
      exact (False_ind _ (proj1 C3 N)).
    + intros _ [].
  - apply (Al_move xs j r h ph Hr Hx).
    + intros j1 r1 h1 ph1 H1 H2 H3 a ->. destruct (C3 j1 r1 h1 _ H1 H2 H3) as [tb [R _]]. rewrite H2 in R. contradiction (U tb R).
    + intros _ a E. discriminate E.
  - apply (Ex_here xs j r h ph Hr Hx). left. exact I.
  - intros _. apply (Ex_here xs j r h ph Hr Hx). exact I.
Qed.

Lemma stirred_move s' tags' h' ph' : stirred t s tags xs ->
  (forall i, nth_error tags' i = Some (out t) -> nth_error tags i = Some (out t) /\ nth i (sh_files s') [] = nth i (sh_files s) []) ->
  (forall i k, k < length (whole t) -> will_write t i k r h ph -> will_write t i k r h' ph') ->
  (sh_names s' (out t) = None -> is_opening ph' \/ (sh_names s (out t) = None /\ ~ is_opening ph)) ->
  (sh_names s' (out t) = None -> sh_names s (out t) = None /\ (is_looking ph' -> is_looking ph)) ->
  (forall a, ph' = Done a -> good_answer r a) ->
  (is_working ph \/ ph = Done (Ok [rows t], after r) -> is_working ph' \/ ph' = Done (Ok [rows t], after r)) ->
  (sh_names s' (pend t) <> None -> is_working ph' \/ (sh_names s (pend t) <> None /\ ~ is_working ph)) ->
  stirred t s' tags' (set_nth j (h', ph') xs).
Proof.
  intros [S1 S2 S3 SL S4 S5 S6] A B C G D E F. constructor.
  - exact S1.
  - intros i Hi. destruct (A i Hi) as [Hi' ->]. destruct (S2 i Hi') as [P W]. split; [exact P|].
    intros k Hk. destruct (W k Hk) as [X|X]; [left; exact X|right].
    apply (Ex_move xs j r h ph Hr Hx h' ph' t _ X). intros _. exact (B i k Hk).
  - intros N. destruct (C N) as [O|[O NO]]; [apply (Ex_here xs j r h ph Hr Hx); exact O|].
    apply (Ex_move xs j r h ph Hr Hx h' ph' t _ (S3 O)). intros _ X. contradiction.
  - intros N N0. destruct (G N) as [M K]. apply (Al_move xs j r h ph Hr Hx h' ph' t _ (SL M N0)). intros _ X.
    exact (SL M N0 _ _ _ _ Hr eq_refl Hx (K X)).
  - apply (Al_move xs j r h ph Hr Hx h' ph' t _ S4). intros _. exact D.
  - apply (Ex_move xs j r h ph Hr Hx h' ph' t _ S5). intros _. exact E.
  - intros N. destruct (F N) as [O|[O NO]]; [apply (Ex_here xs j r h ph Hr Hx); exact O|].
    apply (Ex_move xs j r h ph Hr Hx h' ph' t _ (S6 O)). intros _ X. contradiction.
Qed.

Lemma same_tags : forall i q, nth_error tags i = Some q -> nth_error tags i = Some q \/
  (q = out t /\ Al t xs (fun _ _ ph => ~ is_open ph)).
Proof. auto. Qed.
Lemma calm_closed : calm t s xs -> Al t xs (fun _ _ ph => ~ is_open ph).
Proof. intros [_ [_ C]] j1 r1 h1 ph1 H1 H2 H3 O. specialize (C _ _ _ _ H1 H2 H3). destruct ph1 as [| | |[|]|[|]|]; cbn in *; contradiction. Qed.
Lemma seen_out : exists o, (seen s (out t) = None /\ sh_names s (out t) = None /\ o = None) \/
  exists i, seen s (out t) = Some (File (nth i (sh_files s) [])) /\ sh_names s (out t) = Some (Some i) /\ o = Some i.
Proof.
  pose proof (st_files _ _ _ _ _ (iv_struct _ _ _ V) (out t) out_file) as N. rewrite (seen_at s (out t) out_root) in *.
  destruct (sh_names s (out t)) as [[i|]|]; [exists (Some i); right; eauto|contradiction N; reflexivity|exists None; left; auto].
Qed.
Lemma seen_pend : exists o, (seen s (pend t) = None /\ sh_names s (pend t) = None /\ o = None) \/
  exists i, seen s (pend t) = Some (File (nth i (sh_files s) [])) /\ sh_names s (pend t) = Some (Some i) /\ o = Some i.
Proof.
  pose proof (st_files _ _ _ _ _ (iv_struct _ _ _ V) (pend t) pend_file) as N. rewrite (seen_at s (pend t) pend_root) in *.
  destruct (sh_names s (pend t)) as [[i|]|]; [exists (Some i); right; eauto|contradiction N; reflexivity|exists None; left; auto].
Qed.
Lemma my_trial : trial_inv t s tags xs. Proof. exact (iv_trials _ _ _ V t t_in). Qed.
Lemma my_fits : fits s tags r h ph. Proof. exact (iv_fits _ _ _ V _ _ _ _ Hr Hx). Qed.
Lemma dirs_one (p : path) m : m < 1 -> seen s (prefix (parent p) m) = Some Dir.
Proof. intros H. apply seen_root. replace m with 0 by lia. reflexivity. Qed.
Lemma begin_mark s' tags' h' : fits s' tags' r h' (Mark (Dirs 1)).
Proof. split; [lia|]. intros m H. apply seen_root. replace m with 0 by lia. reflexivity. Qed.
Lemma begin_save s' tags' h' : fits s' tags' r h' (Save (Dirs 1)).
Proof. split; [lia|]. intros m H. apply seen_root. replace m with 0 by lia. reflexivity. Qed.

Definition next : Prop := exists s' h' ph' tags',
  shared_step s (h, prog_of r ph) = (s', (h', prog_of r ph')) /\ Inv s' tags' (set_nth j (h', ph') xs).

Lemma step_done a : ph = Done a -> next.
Proof.
  intros E. exists s, h, ph, tags. split; [rewrite E; reflexivity|]. rewrite set_same by exact Hx. exact V.
Qed.

Lemma quiet_files : forall i, nth_error tags i = Some (out t) -> nth_error tags i = Some (out t) /\ nth i (sh_files s) [] = nth i (sh_files s) [].
Proof. auto. Qed.

Lemma step_begin : ph = Begin -> next.
Proof.
  intros E. unfold next. destruct seen_out as [_ [[O [N _]]|[i [O [N _]]]]].
  - destruct my_trial as [C|S].
    + exists s, h, (Mark (Dirs 1)), (forget (out t) tags). split.
      { rewrite E. cbn [prog_of]. unfold begin, shared_step. cbn [snd fst]. rewrite O. reflexivity. }
      assert (Ns : struct L ts s0 s (forget (out t) tags)) by (apply forget_struct; [exact (iv_struct _ _ _ V)|exact N]).
      eapply (Inv_step (out t)); [exact V|exact Hr|exact Hx|exact Ns| |left; reflexivity| |apply begin_mark|].
      * constructor; auto. intros i q Nq Rq H. apply forget_nth in H; [|exact Rq]. split; [apply H|reflexivity].
      * intros i q H. destruct (path_eqb q (out t)) eqn:Eq; [apply path_eqb_spec in Eq; right; split; [exact Eq|exact (calm_closed C)]|].
        apply path_eqb_neq in Eq. left. apply forget_keeps; assumption.
      * right. apply stir; [exact C| |].
        -- intros tb [c [X _]]. destruct C as [C _]. congruence.
        -- intros i X. apply forget_nth in X; [|exact out_root]. apply X. reflexivity.
    + exists s, h, (Mark (Dirs 1)), tags. split.
      { rewrite E. cbn [prog_of]. unfold begin, shared_step. cbn [snd fst]. rewrite O. reflexivity. }
      eapply (Inv_step (out t)); [exact V|exact Hr|exact Hx|exact (iv_struct _ _ _ V)|apply changed_same|left; reflexivity|exact same_tags|apply begin_mark|].
      right. apply (stirred_move s tags h (Mark (Dirs 1)) S quiet_files).
      * intros i k _ [o [X _]]. rewrite E in X. discriminate X.
      * intros _. left. exact I.
      * intros M. split; [exact M|intros []].
      * intros a X. discriminate X.
      * intros _. left. exact I.
      * intros _. left. exact I.
  - exists s, h, Found, tags. split.
    { rewrite E. cbn [prog_of]. unfold begin, shared_step. cbn [snd fst]. rewrite O. reflexivity. }
    eapply (Inv_step (out t)); [exact V|exact Hr|exact Hx|exact (iv_struct _ _ _ V)|apply changed_same|left; reflexivity|exact same_tags|exact I|].
    destruct my_trial as [[C1 [C2 C3]]|S]; [left|right].
    + split; [exact C1|]. split; [exact C2|]. apply (Al_move xs j r h ph Hr Hx h Found t _ C3). intros _. cbn [calm_phase]. congruence.
    + apply (stirred_move s tags h Found S quiet_files).
      * intros i' k _ [o [X _]]. rewrite E in X. discriminate X.
      * intros X. congruence.
      * intros X. congruence.
      * intros a X. discriminate X.
      * rewrite E. intros [[]|X]. discriminate X.
      * rewrite E. intros X. right. split; [exact X|intros []].
Qed.

Lemma step_found : ph = Found -> next.
Proof.
  intros E. unfold next. destruct seen_out as [_ [[O [N _]]|[i [O [N _]]]]].
  - exists s, h, Refused, tags. split.
    { rewrite E. cbn [prog_of]. unfold found, shared_step. cbn [snd fst]. rewrite O. reflexivity. }
    eapply (Inv_step (out t)); [exact V|exact Hr|exact Hx|exact (iv_struct _ _ _ V)|apply changed_same|left; reflexivity|exact same_tags|exact I|].
    destruct my_trial as [[C1 [C2 C3]]|S]; [left|right].
    + exfalso. specialize (C3 _ _ _ _ Hr eq_refl Hx). rewrite E in C3. cbn [calm_phase] in C3. congruence.
    + apply (stirred_move s tags h Refused S quiet_files).
      * intros i' k _ [o [X _]]. rewrite E in X. discriminate X.
      * rewrite E. intros X. right. split; [exact X|intros []].
      * intros X. split; [exact X|]. intros _. rewrite E. exact I.
      * intros a X. discriminate X.
      * rewrite E. intros [[]|X]. discriminate X.
      * rewrite E. intros X. right. split; [exact X|intros []].
  - destruct (lab_parse L (nth i (sh_files s) [])) as [tb|e] eqn:P.
    + exists s, h, (Done (Ok tb, ru_generators r)), tags. split.
      { rewrite E. cbn [prog_of]. unfold found, shared_step. cbn [snd fst]. rewrite O, P. reflexivity. }
      eapply (Inv_step (out t)); [exact V|exact Hr|exact Hx|exact (iv_struct _ _ _ V)|apply changed_same|left; reflexivity|exact same_tags|exact I|].
      destruct my_trial as [[C1 [C2 C3]]|S]; [left|right].
      * split; [exact C1|]. split; [exact C2|]. apply (Al_move xs j r h ph Hr Hx _ _ t _ C3). intros _. cbn [calm_phase].
        exists tb. split; [|reflexivity]. eexists. split; [rewrite <- C1; exact O|exact P].
      * apply (stirred_move s tags h _ S quiet_files).
        -- intros i' k _ [o [X _]]. rewrite E in X. discriminate X.
        -- intros X. congruence.
        -- intros X. congruence.
        -- intros a X. injection X as <-. right. right. exists (nth i (sh_files s) []), tb.
           split; [|split; [exact P|reflexivity]]. apply (sr_parts _ _ _ _ S i). exact (st_tags _ _ _ _ _ (iv_struct _ _ _ V) _ _ N).
        -- rewrite E. intros [[]|X]. discriminate X.
        -- rewrite E. intros X. right. split; [exact X|intros []].
    + exists s, h, Refused, tags. split.
      { rewrite E. cbn [prog_of]. unfold found, shared_step. cbn [snd fst]. rewrite O, P. reflexivity. }
      eapply (Inv_step (out t)); [exact V|exact Hr|exact Hx|exact (iv_struct _ _ _ V)|apply changed_same|left; reflexivity|exact same_tags|exact I|].
      destruct my_trial as [[C1 [C2 C3]]|S]; [left|right].
      * split; [exact C1|]. split; [exact C2|]. apply (Al_move xs j r h ph Hr Hx _ _ t _ C3). intros _. cbn [calm_phase].
        split; [congruence|]. intros tb [c [X Y]]. rewrite <- C1, O in X. injection X as <-. congruence.
      * apply (stirred_move s tags h _ S quiet_files).
        -- intros i' k _ [o [X _]]. rewrite E in X. discriminate X.
        -- intros X. congruence.
        -- intros X. congruence.
        -- intros a X. discriminate X.
        -- rewrite E. intros [[]|X]. discriminate X.
        -- rewrite E. intros X. right. split; [exact X|intros []].
Qed.

Lemma step_refused : ph = Refused -> next.
Proof.
  intros E. unfold next. destruct seen_out as [_ [[O [N _]]|[i [O [N _]]]]].
  - exists s, h, (Done (Err FileNotFoundError, ru_generators r)), tags. split.
    { rewrite E. cbn [prog_of]. unfold refused, shared_step. cbn [snd fst shared_effect]. rewrite O. reflexivity. }
    eapply (Inv_step (out t)); [exact V|exact Hr|exact Hx|exact (iv_struct _ _ _ V)|apply changed_same|left; reflexivity|exact same_tags|exact I|].
    destruct my_trial as [[C1 [C2 C3]]|S]; [left|right].
    + exfalso. specialize (C3 _ _ _ _ Hr eq_refl Hx). rewrite E in C3. destruct C3 as [C3 _]. congruence.
    + apply (stirred_move s tags h _ S quiet_files).
      * intros i' k _ [o [X _]]. rewrite E in X. discriminate X.
      * rewrite E. intros X. right. split; [exact X|intros []].
      * intros M. split; [exact M|intros []].
      * intros a X. injection X as <-. right. left. split; [reflexivity|]. intros N0.
        apply (sr_lost _ _ _ _ S N N0 _ _ _ _ Hr eq_refl Hx). rewrite E. exact I.
      * rewrite E. intros [[]|X]. discriminate X.
      * rewrite E. intros X. right. split; [exact X|intros []].
  - destruct (unlink_file L ts s0 Sep s tags (out t) (iv_struct _ _ _ V) out_file) as [U1 U2].
    assert (N' : sh_names (rename s (out t) None) (out t) = None) by apply rename_here.
    assert (ST : shared_step s (h, prog_of r ph) = (rename s (out t) None, (h, prog_of r (Mark (Dirs 1))))).
    { rewrite E. cbn [prog_of]. unfold refused, shared_step. cbn [snd fst shared_effect]. rewrite O. reflexivity. }
    destruct my_trial as [C|S].
    + exists (rename s (out t) None), h, (Mark (Dirs 1)), (forget (out t) tags). split; [exact ST|].
      eapply (Inv_step (out t)); [exact V|exact Hr|exact Hx| | |left; reflexivity| |apply begin_mark|].
      * apply forget_struct; [exact U1|exact N'].
      * destruct U2 as [A1 A2 A3 A4]. constructor; auto. intros i' q Nq Rq H. apply forget_nth in H; [|exact Rq].
        destruct H as [_ H]. exact (A3 i' q Nq Rq H).
      * intros i' q H. destruct (path_eqb q (out t)) eqn:Eq; [apply path_eqb_spec in Eq; right; split; [exact Eq|exact (calm_closed C)]|].
        apply path_eqb_neq in Eq. left. apply forget_keeps; assumption.
      * right. apply stir; [exact C| |].
        -- destruct C as [_ [_ C]]. specialize (C _ _ _ _ Hr eq_refl Hx). rewrite E in C. apply C.
        -- intros i' X. apply forget_nth in X; [|exact out_root]. apply X. reflexivity.
    + exists (rename s (out t) None), h, (Mark (Dirs 1)), tags. split; [exact ST|].
      eapply (Inv_step (out t)); [exact V|exact Hr|exact Hx|exact U1|exact U2|left; reflexivity|exact same_tags|apply begin_mark|].
      right. destruct S as [S1 S2 S3 SL S4 S5 S6]. constructor.
      * exact S1.
      * intros i' Hi. destruct (S2 i' Hi) as [Pa Wa]. split; [exact Pa|]. intros k Hk. destruct (Wa k Hk) as [Y|Y]; [left; exact Y|right].
        apply (Ex_move xs j r h ph Hr Hx h (Mark (Dirs 1)) t _ Y). intros _ [o [X _]]. rewrite E in X. discriminate X.
      * intros _. apply (Ex_here xs j r h ph Hr Hx). exact I.
      * intros _ N0 j1 r1 h1 ph1 H1 H2 H3 K. destruct S5 as [j2 [r2 [h2 [ph2 [G1 [G2 [G3 G4]]]]]]].
        destruct (Nat.eq_dec j j1) as [<-|D1]; [rewrite (new_nth xs j h ph Hx) in H3; injection H3 as <- <-; contradiction|].
        rewrite nth_error_set_other in H3 by exact D1.
        exists j, j1, j2. split; [exists r; auto|]. split; [exists r1; auto|]. split; [exists r2; auto|]. split; [exact D1|]. split.
        -- intros <-. assert (ph2 = Refused) by congruence. subst ph2. destruct G4 as [[]|G4]. discriminate G4.
        -- intros <-. assert (ph2 = ph1) by congruence. subst ph2. destruct ph1; try contradiction; destruct G4 as [[]|G4]; discriminate G4.
      * apply (Al_move xs j r h ph Hr Hx h (Mark (Dirs 1)) t _ S4). intros _ a Y. discriminate Y.
      * apply (Ex_here xs j r h ph Hr Hx). left. exact I.
      * intros _. apply (Ex_here xs j r h ph Hr Hx). exact I.
Qed.

Lemma mkdir_step p n : 1 <= n <= height p -> (forall m, m < n -> seen s (prefix (parent p) m) = Some Dir) ->
  (forall q, on_the_way (parent p) q -> directory_of L t q) ->
  exists s', shared_effect s h (Plain (MkDir (prefix (parent p) n))) = Ok (s', h) /\
    struct L ts s0 s' tags /\ changed (prefix (parent p) n) s tags s' tags /\ seen s' (prefix (parent p) n) = Some Dir /\
    dir_path L ts (prefix (parent p) n) /\ sh_files s' = sh_files s.
Proof.
  intros H D W. unfold height in H. pose proof (prefix_nonroot (parent p) n H) as R.
  assert (DP : dir_path L ts (prefix (parent p) n)).
  { exists t. split; [exact t_in|]. apply W. apply on_the_way_prefix. exists n. split; [exact H|reflexivity]. }
  assert (P : seen s (parent (prefix (parent p) n)) = Some Dir).
  { destruct n as [|m]; [lia|]. rewrite parent_prefix by lia. apply D. lia. }
  unfold shared_effect. rewrite P. destruct (seen s (prefix (parent p) n)) as [[|c]|] eqn:E.
  - exists s. split; [reflexivity|]. split; [exact (iv_struct _ _ _ V)|]. split; [apply changed_same|]. auto.
  - contradiction (st_dirs _ _ _ _ _ (iv_struct _ _ _ V) _ c DP E).
  - destruct (make_dir L ts s0 Sep s tags _ (iv_struct _ _ _ V) DP R E P) as [A [B C]].
    eexists. split; [reflexivity|]. auto.
Qed.

Lemma dir_changed p s' : dir_path L ts p -> changed p s tags s' tags -> 
  sh_names s' (out t) = sh_names s (out t) /\ sh_names s' (pend t) = sh_names s (pend t) /\
  forall i, nth_error tags i = Some (out t) -> nth i (sh_files s') [] = nth i (sh_files s) [].
Proof.
  intros D C. assert (N1 : out t <> p) by (intros X; rewrite <- X in D; exact (file_not_dir L ts Sep _ out_file D)).
  assert (N2 : pend t <> p) by (intros X; rewrite <- X in D; exact (file_not_dir L ts Sep _ pend_file D)).
  split; [exact (ch_names _ _ _ _ _ C _ N1)|]. split; [exact (ch_names _ _ _ _ _ C _ N2)|].
  intros i H. apply (ch_files _ _ _ _ _ C i _ N1 out_root H).
Qed.

Lemma working_stirred : is_working ph -> stirred t s tags xs.
Proof.
  intros W. destruct my_trial as [[_ [_ C]]|S]; [|exact S]. exfalso. specialize (C _ _ _ _ Hr eq_refl Hx).
  destruct ph; cbn in *; contradiction.
Qed.

Lemma step_mark_dir n : ph = Mark (Dirs n) -> n <= height (pend t) -> next.
Proof.
  intros E Hn. unfold next. pose proof my_fits as F. rewrite E in F. destruct F as [[F1 _] F2].
  assert (W : is_working ph) by (rewrite E; exact I). pose proof (working_stirred W) as S.
  destruct (mkdir_step (pend t) n ltac:(lia) F2) as [s' [A [B [C [D [G K]]]]]]; [intros q Hq; right; exact Hq|].
  destruct (dir_changed _ _ G C) as [X1 [X2 X3]].
  exists s', h, (Mark (Dirs (Datatypes.S n))), tags. split.
  { rewrite E. cbn [prog_of]. unfold marking. rewrite saving_dir by exact Hn. unfold shared_step. cbn [fst snd]. rewrite A. reflexivity. }
  eapply (Inv_step (prefix (parent (pend t)) n)); [exact V|exact Hr|exact Hx|exact B|exact C|right; right; exact G|exact same_tags| |].
  - split; [lia|]. intros m Hm. destruct (Nat.eq_dec m n) as [->|N]; [exact D|]. apply (ch_dirs _ _ _ _ _ C). apply F2. lia.
  - right. apply (stirred_move s' tags h (Mark (Dirs (Datatypes.S n))) S).
    + intros i Hi. split; [exact Hi|exact (X3 i Hi)].
    + intros i k _ [o [X _]]. rewrite E in X. discriminate X.
    + intros _. left. exact I.
    + intros M. rewrite X1 in M. split; [exact M|intros []].
    + intros a X. discriminate X.
    + intros _. left. exact I.
    + intros _. left. exact I.
Qed.

Lemma step_save_dir n : ph = Save (Dirs n) -> n <= height (out t) -> next.
Proof.
  intros E Hn. unfold next. pose proof my_fits as F. rewrite E in F. destruct F as [[F1 _] F2].
  assert (W : is_working ph) by (rewrite E; exact I). pose proof (working_stirred W) as S.
  destruct (mkdir_step (out t) n ltac:(lia) F2) as [s' [A [B [C [D [G K]]]]]]; [intros q Hq; left; exact Hq|].
  destruct (dir_changed _ _ G C) as [X1 [X2 X3]].
  exists s', h, (Save (Dirs (Datatypes.S n))), tags. split.
  { rewrite E. cbn [prog_of]. unfold writing. rewrite saving_dir by exact Hn. unfold shared_step. cbn [fst snd]. rewrite A. reflexivity. }
  eapply (Inv_step (prefix (parent (out t)) n)); [exact V|exact Hr|exact Hx|exact B|exact C|right; right; exact G|exact same_tags| |].
  - split; [lia|]. intros m Hm. destruct (Nat.eq_dec m n) as [->|N]; [exact D|]. apply (ch_dirs _ _ _ _ _ C). apply F2. lia.
  - right. apply (stirred_move s' tags h (Save (Dirs (Datatypes.S n))) S).
    + intros i Hi. split; [exact Hi|exact (X3 i Hi)].
    + intros i k _ [o [X _]]. rewrite E in X. discriminate X.
    + intros _. left. exact I.
    + intros M. rewrite X1 in M. split; [exact M|intros []].
    + intros a X. discriminate X.
    + intros _. left. exact I.
    + intros _. left. exact I.
Qed.

Lemma open_step p : file_path L ts p -> seen s (parent p) = Some Dir ->
  exists s' tags' i, shared_effect s h (Plain (Truncate p)) = Ok (s', Some {| h_path := p; h_file := i; h_offset := 0 |}) /\
    struct L ts s0 s' tags' /\ changed p s tags s' tags' /\ nth_error tags' i = Some p /\ nth i (sh_files s') [] = [] /\
    sh_names s' p = Some (Some i) /\ (forall j, j <> i -> nth j (sh_files s') [] = nth j (sh_files s) []) /\
    (forall i q, nth_error tags i = Some q -> nth_error tags' i = Some q) /\
    (forall j q, j <> i -> nth_error tags' j = Some q -> nth_error tags j = Some q).
Proof.
  intros F P. pose proof (file_nonroot L ts Sep p F) as R. pose proof (st_files _ _ _ _ _ (iv_struct _ _ _ V) p F) as N.
  unfold shared_effect. rewrite P. rewrite (seen_at s p R) in *. destruct (sh_names s p) as [[i|]|] eqn:E; [|contradiction N; reflexivity|].
  - pose proof (st_tags _ _ _ _ _ (iv_struct _ _ _ V) _ _ E) as T.
    destruct (fill_file L ts s0 Sep s tags p i [] (iv_struct _ _ _ V) F T) as [A [B [C D]]].
    exists (refill s i []), tags, i. split; [reflexivity|]. repeat (split; [first [assumption|auto]|]). auto.
  - destruct (new_file L ts s0 Sep s tags p (iv_struct _ _ _ V) F E P) as [A [B [C [D [G K]]]]].
    eexists _, (tags ++ [p]), (length (sh_files s)). split; [reflexivity|]. split; [exact A|]. split; [exact B|].
    split; [exact C|]. split; [exact D|]. split; [apply rename_here|]. split; [exact G|]. split.
    + intros i q H. rewrite K; [exact H|]. intros ->. rewrite (proj2 (nth_error_None tags _)) in H; [discriminate H|].
      rewrite (st_length _ _ _ _ _ (iv_struct _ _ _ V)). lia.
    + intros j0 q Nj H. rewrite K in H by exact Nj. exact H.
Qed.

Lemma step_mark_open : ph = Mark (Dirs (S (height (pend t)))) -> next.
Proof.
  intros E. unfold next. pose proof my_fits as F. rewrite E in F. destruct F as [F1 F2].
  assert (W : is_working ph) by (rewrite E; exact I). pose proof (working_stirred W) as S.
  assert (P : seen s (parent (pend t)) = Some Dir).
  { rewrite <- (prefix_all (parent (pend t))). apply F2. unfold height. lia. }
  destruct (open_step (pend t) pend_file P) as [s' [tags' [i [A [B [C [D [G [K [M [O Q]]]]]]]]]]].
  exists s', (Some {| h_path := pend t; h_file := i; h_offset := 0 |}), (Mark (Writing 0)), tags'. split.
  { rewrite E. cbn [prog_of]. unfold marking. rewrite saving_open. unfold shared_step. cbn [fst snd]. rewrite A. reflexivity. }
  eapply (Inv_step (pend t)); [exact V|exact Hr|exact Hx|exact B|exact C|right; left; reflexivity| | |].
  - intros i' q H. left. exact (O i' q H).
  - split; [apply marker_nonempty|]. eauto.
  - right. apply (stirred_move s' tags' _ (Mark (Writing 0)) S).
    + intros i' Hi. apply (ch_files _ _ _ _ _ C i' (out t) out_pend out_root Hi).
    + intros i' k _ [o [X _]]. rewrite E in X. discriminate X.
    + intros _. left. exact I.
    + intros Y. rewrite (ch_names _ _ _ _ _ C _ out_pend) in Y. split; [exact Y|intros []].
    + intros a X. discriminate X.
    + intros _. left. exact I.
    + intros _. left. exact I.
Qed.

Lemma step_mark_write o : ph = Mark (Writing o) -> next.
Proof.
  intros E. unfold next. pose proof my_fits as F. rewrite E in F. destruct F as [F1 [i [o' [F2 F3]]]].
  assert (W : is_working ph) by (rewrite E; exact I). pose proof (working_stirred W) as S.
  destruct (nth_error (marker r) o) as [x|] eqn:X; [|apply nth_error_None in X; lia].
  destruct (fill_file L ts s0 Sep s tags (pend t) i (write_at (nth i (sh_files s) []) o' x) (iv_struct _ _ _ V) pend_file F3) as [A [B [C D]]].
  set (s' := refill s i (write_at (nth i (sh_files s) []) o' x)) in *.
  set (h' := Some {| h_path := pend t; h_file := i; h_offset := Datatypes.S o' |}).
  assert (ST : shared_step s (h, prog_of r ph) = (s', (h', marking r (Writing (Datatypes.S o))))).
  { rewrite E, F2. cbn [prog_of]. unfold marking. rewrite (saving_write _ _ _ _ _ _ X). unfold shared_step. cbn [fst snd shared_effect h_path h_file h_offset].
    rewrite path_eqb_refl. reflexivity. }
  assert (M : forall ph', is_working ph' -> is_opening ph' -> stirred t s' tags (set_nth j (h', ph') xs)).
  { intros ph' W1 W2. apply (stirred_move s' tags h' ph' S).
    - intros i' Hi. apply (ch_files _ _ _ _ _ B i' (out t) out_pend out_root Hi).
    - intros i' k _ [o1 [Y _]]. rewrite E in Y. discriminate Y.
    - intros _. left. exact W2.
    - intros Y. rewrite (ch_names _ _ _ _ _ B _ out_pend) in Y. split; [exact Y|]. destruct ph'; try contradiction; intros [].
    - intros a Y. rewrite Y in W1. contradiction.
    - intros _. left. exact W1.
    - intros _. left. exact W1. }
  destruct (Nat.eq_dec (Datatypes.S o) (length (marker r))) as [Last|More].
  - exists s', h', (Save (Dirs 1)), tags. split.
    { rewrite ST. do 2 f_equal. rewrite Last. unfold marking. rewrite saving_end. cbn [acts]. apply mark_writing. eapply nth_error_In. exact Hr. }
    eapply (Inv_step (pend t)); [exact V|exact Hr|exact Hx|exact A|exact B|right; left; reflexivity|exact same_tags|apply begin_save|].
    right. apply M; exact I.
  - exists s', h', (Mark (Writing (Datatypes.S o))), tags. split; [exact ST|].
    eapply (Inv_step (pend t)); [exact V|exact Hr|exact Hx|exact A|exact B|right; left; reflexivity|exact same_tags| |].
    + split; [lia|]. exists i, (Datatypes.S o'). split; [reflexivity|exact F3].
    + right. apply M; exact I.
Qed.

Lemma step_save_open : ph = Save (Dirs (S (height (out t)))) -> next.
Proof.
  intros E. unfold next. pose proof my_fits as F. rewrite E in F. destruct F as [F1 F2].
  assert (W : is_working ph) by (rewrite E; exact I). pose proof (working_stirred W) as S.
  assert (P : seen s (parent (out t)) = Some Dir).
  { rewrite <- (prefix_all (parent (out t))). apply F2. unfold height. lia. }
  destruct (open_step (out t) out_file P) as [s' [tags' [i [A [B [C [D [G [K [M [O Q]]]]]]]]]]].
  set (h' := Some {| h_path := out t; h_file := i; h_offset := 0 |}).
  exists s', h', (Save (Writing 0)), tags'. split.
  { rewrite E. cbn [prog_of]. unfold writing. rewrite saving_open. unfold shared_step. cbn [fst snd]. rewrite A. reflexivity. }
  eapply (Inv_step (out t)); [exact V|exact Hr|exact Hx|exact B|exact C|left; reflexivity| | |].
  - intros i' q H. left. exact (O i' q H).
  - split; [lia|]. exists i. split; [reflexivity|exact D].
  - right. destruct S as [S1 S2 S3 SL S4 S5 S6]. constructor.
    + exact S1.
    + intros i' Hi. destruct (Nat.eq_dec i' i) as [->|Ni].
      * rewrite G. split; [apply patchy_nil|]. intros k Hk. right. apply (Ex_here xs j r h ph Hr Hx). exists 0. split; [reflexivity|]. split; [reflexivity|lia].
      * rewrite (M i' Ni). destruct (S2 i' (Q i' _ Ni Hi)) as [Pa Wa]. split; [exact Pa|]. intros k Hk. destruct (Wa k Hk) as [Y|Y]; [left; exact Y|right].
        apply (Ex_move xs j r h ph Hr Hx h' (Save (Writing 0)) t _ Y). intros _ [o [Y1 _]]. rewrite E in Y1. discriminate Y1.
    + intros N. congruence.
    + intros N. congruence.
    + apply (Al_move xs j r h ph Hr Hx h' (Save (Writing 0)) t _ S4). intros _ a Y. discriminate Y.
    + apply (Ex_here xs j r h ph Hr Hx). left. exact I.
    + intros _. apply (Ex_here xs j r h ph Hr Hx). exact I.
Qed.

Lemma step_save_write o : ph = Save (Writing o) -> o < length (whole t) -> next.
Proof.
  intros E Ho. unfold next. pose proof my_fits as F. rewrite E in F. destruct F as [F1 [i [F2 F3]]].
  assert (W : is_working ph) by (rewrite E; exact I). pose proof (working_stirred W) as S.
  destruct (nth_error (whole t) o) as [x|] eqn:X; [|apply nth_error_None in X; lia].
  destruct (fill_file L ts s0 Sep s tags (out t) i (write_at (nth i (sh_files s) []) o x) (iv_struct _ _ _ V) out_file F3) as [A [B [C D]]].
  set (s' := refill s i (write_at (nth i (sh_files s) []) o x)) in *.
  set (h' := Some {| h_path := out t; h_file := i; h_offset := Datatypes.S o |}).
  exists s', h', (Save (Writing (Datatypes.S o))), tags. split.
  { rewrite E, F2. cbn [prog_of]. unfold writing. rewrite (saving_write _ _ _ _ _ _ X). unfold shared_step. cbn [fst snd shared_effect h_path h_file h_offset].
    rewrite path_eqb_refl. reflexivity. }
  eapply (Inv_step (out t)); [exact V|exact Hr|exact Hx|exact A|exact B|left; reflexivity|exact same_tags| |].
  - split; [lia|]. exists i. split; [reflexivity|exact F3].
  - right. destruct S as [S1 S2 S3 SL S4 S5 S6]. constructor.
    + exact S1.
    + intros i' Hi. destruct (S2 i' Hi) as [Pa Wa]. destruct (Nat.eq_dec i' i) as [->|Ni].
      * rewrite C. split; [apply write_at_patchy; assumption|]. intros k Hk. destruct (Nat.eq_dec k o) as [->|Nk].
        { left. rewrite write_at_here. symmetry. exact X. }
        destruct (Wa k Hk) as [Y|Y].
        { left. rewrite write_at_other; [exact Y|exact Nk|]. apply nth_error_Some. rewrite Y. apply nth_error_Some. exact Hk. }
        right. apply (Ex_move xs j r h ph Hr Hx h' (Save (Writing (Datatypes.S o))) t _ Y). intros _ [o1 [Y1 [Y2 Y3]]].
        rewrite E in Y1. injection Y1 as <-. exists (Datatypes.S o). split; [reflexivity|]. split; [reflexivity|lia].
      * rewrite (D i' Ni). split; [exact Pa|]. intros k Hk. destruct (Wa k Hk) as [Y|Y]; [left; exact Y|right].
        apply (Ex_move xs j r h ph Hr Hx h' (Save (Writing (Datatypes.S o))) t _ Y). intros _ [o1 [Y1 [Y2 Y3]]].
        rewrite F2 in Y2. congruence.
    + intros N. apply (Ex_move xs j r h ph Hr Hx h' (Save (Writing (Datatypes.S o))) t _ (S3 N)). intros _ Y. rewrite E in Y. contradiction.
    + intros N N0. apply (Al_move xs j r h ph Hr Hx h' (Save (Writing (Datatypes.S o))) t _ (SL N N0)). intros _ [].
    + apply (Al_move xs j r h ph Hr Hx h' (Save (Writing (Datatypes.S o))) t _ S4). intros _ a Y. discriminate Y.
    + apply (Ex_here xs j r h ph Hr Hx). left. exact I.
    + intros _. apply (Ex_here xs j r h ph Hr Hx). exact I.
Qed.

Lemma step_save_end : ph = Save (Writing (length (whole t))) -> next.
Proof.
  intros E. unfold next. assert (W : is_working ph) by (rewrite E; exact I). pose proof (working_stirred W) as S.
  assert (R : exists s', shared_effect s h (Unlink (pend t) true) = Ok (s', h) /\ struct L ts s0 s' tags /\ changed (pend t) s tags s' tags /\
    sh_names s' (pend t) = None).
  { unfold shared_effect. destruct seen_pend as [_ [[O [N _]]|[i [O [N _]]]]]; rewrite O.
    - exists s. split; [reflexivity|]. split; [exact (iv_struct _ _ _ V)|]. split; [apply changed_same|exact N].
    - destruct (unlink_file L ts s0 Sep s tags (pend t) (iv_struct _ _ _ V) pend_file) as [U1 U2].
      eexists. split; [reflexivity|]. split; [exact U1|]. split; [exact U2|]. apply rename_here. }
  destruct R as [s' [A [B [C N]]]].
  exists s', h, (Done (Ok [rows t], after r)), tags. split.
  { rewrite E. cbn [prog_of]. unfold writing. rewrite saving_end. unfold shared_step. cbn [fst snd acts]. rewrite A. reflexivity. }
  eapply (Inv_step (pend t)); [exact V|exact Hr|exact Hx|exact B|exact C|right; left; reflexivity|exact same_tags|exact I|].
  right. apply (stirred_move s' tags h (Done (Ok [rows t], after r)) S).
  - intros i' Hi. apply (ch_files _ _ _ _ _ C i' (out t) out_pend out_root Hi).
  - intros i' k Hk [o1 [Y [_ Z]]]. rewrite E in Y. injection Y as <-. lia.
  - intros M. right. split; [|rewrite E; intros []]. rewrite <- M. symmetry. apply (ch_names _ _ _ _ _ C _ out_pend).
  - intros Y. rewrite (ch_names _ _ _ _ _ C _ out_pend) in Y. split; [exact Y|intros []].
  - intros a Y. injection Y as <-. left. reflexivity.
  - intros _. right. reflexivity.
  - intros Y. contradiction.
Qed.

Lemma step : next.
Proof.
  destruct ph as [| | |[n|o]|[n|o]|a] eqn:E.
  - rewrite <- E in *. exact (step_begin E).
  - rewrite <- E in *. exact (step_found E).
  - rewrite <- E in *. exact (step_refused E).
  - rewrite <- E in *. pose proof my_fits as F. rewrite E in F. destruct F as [F1 _].
    destruct (Nat.eq_dec n (S (height (pend t)))) as [->|N]; [exact (step_mark_open E)|]. apply (step_mark_dir n E). lia.
  - rewrite <- E in *. exact (step_mark_write o E).
  - rewrite <- E in *. pose proof my_fits as F. rewrite E in F. destruct F as [F1 _].
    destruct (Nat.eq_dec n (S (height (out t)))) as [->|N]; [exact (step_save_open E)|]. apply (step_save_dir n E). lia.
  - rewrite <- E in *. pose proof my_fits as F. rewrite E in F. destruct F as [F1 _].
    destruct (Nat.eq_dec o (length (whole t))) as [->|N]; [exact (step_save_end E)|]. apply (step_save_write o E). lia.
  - rewrite <- E in *. exact (step_done a E).
Qed.
End Step.
End Run.

(** Specification vocabulary for comparing a run on a disk with one on cloud storage. *)
From Coq Require Import String Ascii.
From Verif Require Import Prelude ModelData ModelFiles SpecFiles ModelHalo ModelDriver ModelExecute ModelCloud SpecCloud.
Open Scope Z_scope.

(** The same impressions, kept under the address of the same path on cloud storage. *)
Definition moved_publisher (p : publisher_data) : publisher_data := set_name p (cloud_address (pd_name p)).
Definition moved (d : data_set) : data_set :=
  {| ds_data := map moved_publisher (ds_data d); ds_maximum_reach := ds_maximum_reach d; ds_name := ds_name d;
     ds_universe := ds_universe d |}.
Definition moved_halo (h : halo) : halo :=
  {| h_data_set := moved (h_data_set h); h_ll := h_ll h;
     h_publishers := map (fun p => {| pub_data := moved_publisher (pub_data p); pub_campaign_spend := pub_campaign_spend p |})
                         (h_publishers h) |}.

(** Models that differ at most in where their data are kept: [mv] makes the one from the other,
    they answer the same and were trained on the same. *)
Definition same_model (L : lab) (mv : lab_model L -> lab_model L) : Prop :=
  (forall m spends k, lab_ask L (mv m) spends k = (fst (lab_ask L m spends k), mv (snd (lab_ask L m spends k)))) /\
  (forall m, lab_training L (mv m) = lab_training L m).

(** Settings that do not look at where the impressions are kept: their strategies fit models
    that answer the same, and they spend the same fractions. *)
Definition ignore_places (L : lab) (descs : list trial_descriptor) : Prop :=
  forall desc, In desc descs ->
    (exists mv, same_model L mv /\ forall h b gl w,
       lab_fit L (td_strategy desc) (moved_halo h) b gl w =
       (('(m, gl') <- fst (lab_fit L (td_strategy desc) h b gl w) ;; Ok (mv m, gl')), snd (lab_fit L (td_strategy desc) h b gl w))) /\
    (forall f, sp_fractions_generator (td_system desc) = Some f -> forall d, f (moved d) = f d).

(** The objects below [dir] are the files of the disk there. *)
Definition copied (d : disk) (o : objects) (dir : path) : Prop :=
  forall q c, within dir q -> (obj_find o q = Some c <-> stat d q = Some (File c)).

(** Two drivers that differ in where they keep their files. *)
Definition same_settings (L : lab) (dr dr' : driver L) : Prop :=
  dr_fetch L dr' = dr_fetch L dr /\ dr_seed L dr' = dr_seed L dr /\ dr_analysis L dr' = dr_analysis L dr.

(** The same trial, on the moved data set. *)
Definition moved_trial (t t' : trial) : Prop :=
  tr_data_set t' = tr_data_set t /\ tr_descriptor t' = tr_descriptor t /\ tr_analysis t' = tr_analysis t /\
  exists s, dd_by_name (tr_design t) (tr_data_set t) = Ok s /\ dd_by_name (tr_design t') (tr_data_set t) = Ok (moved s).

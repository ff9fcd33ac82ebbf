(** Vocabulary for configurations (C50). *)
From Coq Require Import String.
From Coq Require Import List Bool.
From Verif.Lib Require Import Base Scalar.
From Verif.Model Require Import State.
Import ListNotations.

(** Metrics that need the SDC's routes. *)
Definition route_metric (name : string) : Prop :=
  name = "sdc_wrongway"%string \/ name = "sdc_progression"%string \/ name = "sdc_off_route"%string.

(** The documented metric names (config.py:125-128). *)
Definition documented_metric (name : string) : Prop :=
  In name ["log_divergence"; "overlap"; "offroad"; "sdc_wrongway"; "sdc_off_route";
           "sdc_progression"; "kinematic_infeasibility"]%string.

(** A scenario as loaded with or without SDC paths: routes are present exactly
    when asked for, and neither the routes nor the map are empty arrays. *)
Definition loaded {S : Scalar} (with_paths : bool) (s : state) : Prop :=
  (exists rg, s_rg s = Some rg /\ rg <> []) /\
  (if with_paths
   then exists ps, s_paths s = Some ps /\ ps <> [] /\ forall p, In p ps -> path_pts p <> []
   else s_paths s = None).

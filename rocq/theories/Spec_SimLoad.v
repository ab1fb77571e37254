(** Specification vocabulary for the simulation loaders. *)

From Coq Require Import Reals String List ZArith.
From Verif Require Import Model_Num Model_Base Model_Data Model_SimLoad.
Import ListNotations.
Local Open Scope string_scope.

(** The file holds these four columns at the paths of the Galacticus output. *)
Definition galacticus_file {V} (hdf : h5 V) (mass time isolated last : list V) : Prop :=
  h5_get hdf "Outputs/Output1/nodeData/haloAccretionHistoryMass" = Ok (Rows mass) /\
  h5_get hdf "Outputs/Output1/nodeData/haloAccretionHistoryTime" = Ok (Rows time) /\
  h5_get hdf "Outputs/Output1/nodeData/nodeIsIsolated" = Ok (Rows isolated) /\
  h5_get hdf "Outputs/Output1/nodeData/basicTimeLastIsolated" = Ok (Rows last).

(** A file whose first two columns are the histories of [halos], given as pairs
    (times, masses). *)
Definition galacticus_halos (hdf : h5 cell) (halos : list (list xr * list xr)) : Prop :=
  exists isolated last,
    galacticus_file hdf (map (fun x => Hist (snd x)) halos) (map (fun x => Hist (fst x)) halos) isolated last.

(** The simulation that a name stands for: the known one, else the one described
    by the configuration file of that name. *)
Definition simulation_named (E : HaccEnv) (name : string) (sim : HaccSim) : Prop :=
  In (name, sim) (simulations E) \/
  ((forall s, ~ In (name, s) (simulations E)) /\ parse_config E name = Ok sim).

(** The redshifts and ages of its outputs. *)
Definition output_redshifts (sim : HaccSim) : list xr := map (step2z sim) (cosmotools_steps sim).
Definition output_ages (E : HaccEnv) (sim : HaccSim) : list xr :=
  map (fun s => age_at_z E (step2z sim s) (Omega_m sim) (w0 sim) (wa sim) (h sim)) (cosmotools_steps sim).

(** Model of one evaluation made by the model-exchange server for a simulator with any number of bodies:
    observers_and_api/src/XdynForME.cpp:22-34, core/src/Sim.cpp:126-134 and 239-247, observers_and_api/src/SimServerInputs.cpp:31-62.
    The forces and the rotation matrices obtained for each body are arbitrary, as in Sim_Model. *)
From Coq Require Import ZArith List Bool Reals.
From Verif Require Import Common History_Model History_Real_Proofs Blocked_Model Sim_Model Server_Model.
Import ListNotations.
Open Scope R_scope.

(** XdynForME.cpp:22-34: [set_bodystates] (Sim.cpp:239-247) takes [bodies.at(0)] first, then the derivatives are computed in a
    vector of 13 zeros, whatever the number of bodies. *)
Definition me_derivatives {aeqR} {Itp} (itp_df : Itp -> R -> outcome R) (bodies : list (body Itp * vec * mat))
  (i : server_inputs (Rarith aeqR)) : outcome (list R) :=
  do _ <- at_throw bodies 0 ;
  dx_dt itp_df bodies (state_at_t i) (repeat 0 13) (in_t i).

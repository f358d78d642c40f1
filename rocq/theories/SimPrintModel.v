(** Model of the status lines of the sphere simulation: nuto/geometryConcrete/collision/handler/CollisionHandler.cpp
    (LogStatus and its two calls in Simulate), ParticleHandler.cpp and the functions of CollidableParticleSphere.cpp that
    they use.

    Simplifications: exact reals; the number of events and the wall clock in the line, the text format and the log file
    are left out. *)
From Coq Require Import Reals ZArith List Bool.
From Verif Require Import Outcome Vec3 CollisionModel SubBoxModel SimModel TakeModel.
Import ListNotations.
Local Open Scope R_scope.

(** CollidableParticleSphere::GetKineticEnergy, CollidableParticleSphere.cpp:235-238 *)
Definition sphere_energy (s : sphere) : R := 1 / 2 * srad s * srad s * srad s * dot (svel s) (svel s).
(** CollidableParticleSphere::GetVolume, CollidableParticleSphere.cpp:240-243 *)
Definition sphere_volume (s : sphere) : R := ball_volume (srad s).
(** ParticleHandler::GetKineticEnergy and GetVolume, ParticleHandler.cpp:160-174 *)
Definition total_energy (ids : list Z) (s : sim) : R := fold_left (fun x i => x + sphere_energy (sph s i)) ids 0.
Definition total_volume (ids : list Z) (s : sim) : R := fold_left (fun x i => x + sphere_volume (sph s i)) ids 0.

(** one line: the time, the energy and the fraction of the volume *)
Record status_line := mkLine { ln_time : R; ln_energy : R; ln_fraction : R }.

Section Status.
  Variable what : Z -> object.
  Variable ids : list Z.           (* the spheres of the ParticleHandler *)
  Variable spec : specimen.        (* the specimen of the SubBoxHandler, SubBoxHandler.cpp:346-349 *)

  (** LogStatus, CollisionHandler.cpp:31-48: the energy is taken before the spheres are synchronised, the volume after *)
  Definition log_status (t : R) (s : sim) : outcome (sim * status_line) :=
    let e := total_energy ids s in
    let s' := sync what ids t s in
    omap (fun v => (s', mkLine t e (total_volume ids s' / v))) (specimen_volume spec).

  (** the end of Simulate, CollisionHandler.cpp:173-174 *)
  Definition last_status (t : R) (s : sim) : outcome (sim * status_line) := log_status t (sync what ids t s).
End Status.

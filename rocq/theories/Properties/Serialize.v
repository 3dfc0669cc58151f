(** C69: saving and loading *)
From Coq Require Import List String Bool Arith QArith Qabs.
Import ListNotations.
From Verif.Model Require Import Serialize.
From Verif.Spec Require Import Serialize.
From Verif.Proofs Require Serialize SerializeCases.
Local Open Scope string_scope.

(** An element *)
Theorem C69_element : forall e, element_ok e -> element_from_dict (element_to_dict e) = Some e.
Proof. exact Verif.Proofs.Serialize.element_round. Qed.
Print Assumptions C69_element.

(** A composer: expressions come back as texts *)
Theorem C69_composer : forall e c, composer_ok e c ->
  composer_from_dict (fun n => has n (en_elements e)) (composer_to_dict c) = Some (plain_composer c).
Proof. exact Verif.Proofs.Serialize.composer_round. Qed.
Print Assumptions C69_composer.

(** An environment *)
Theorem C69_environment : forall e, env_ok e -> env_from_dict (env_to_dict e) = Done (plain_env e).
Proof. exact Verif.Proofs.Serialize.env_round. Qed.
Print Assumptions C69_environment.

Theorem C69_environment_exact : forall e, env_ok e -> (forall n l, In (n, l) (en_lines e) -> ln_composer l = None) -> env_copy e = Done e.
Proof. exact Verif.Proofs.Serialize.env_round_exact. Qed.
Print Assumptions C69_environment_exact.

(** A second copy changes nothing more *)
Theorem C69_twice : forall e, env_ok e -> bind (env_copy e) env_copy = env_copy e.
Proof. exact Verif.Proofs.Serialize.env_round_twice. Qed.
Print Assumptions C69_twice.

(** A line by itself *)
Theorem C69_line : forall e l, (forall n x, In (n, x) (en_elements e) -> element_ok x) -> NoDup (keys (en_particles e)) -> vars_ok (en_vars e) -> line_ok e l ->
  alone_from_dict (alone_to_dict e l) = Done (env_alone e, plain_line l).
Proof. exact Verif.Proofs.Serialize.alone_round. Qed.
Print Assumptions C69_line.

(** A copy of a line *)
Theorem C69_line_copy : forall e l nn, vars_ok (en_vars e) -> line_ok e l -> ln_names l = Names nn ->
  exists e' l', line_copy e l = Done (e', l') /\
    en_elements e' = en_elements e /\ en_vars e' = en_vars e /\ en_lines e' = [] /\
    ln_names l' = ln_names l /\ ln_config l' = ln_config l /\ ln_extra l' = ln_extra l /\ ln_compose l' = false /\ ln_ref l' = ln_ref l /\ ln_metadata l' = ln_metadata l /\
    (forall r, ln_ref l = Some r -> particle_of e' r = particle_of e r).
Proof. exact Verif.Proofs.Serialize.copy_round. Qed.
Print Assumptions C69_line_copy.

(** The strengths of a magnet *)
Theorem C69_strengths : forall m, clear (mp_knl m) -> clear (mp_ksl m) ->
  let m' := multipole_init (multipole_to_dict m) in
  (forall i, nth_strength (mp_knl m') i = nth_strength (mp_knl m) i) /\ (forall i, nth_strength (mp_ksl m') i = nth_strength (mp_ksl m) i).
Proof. exact Verif.Proofs.Serialize.multipole_strengths. Qed.
Print Assumptions C69_strengths.

Theorem C69_strengths_exact : forall m, (5 <= mp_order m)%nat -> List.length (mp_knl m) = S (mp_order m) -> List.length (mp_ksl m) = S (mp_order m) ->
  clear (mp_knl m) -> clear (mp_ksl m) -> multipole_init (multipole_to_dict m) = m.
Proof. exact Verif.Proofs.Serialize.multipole_exact. Qed.
Print Assumptions C69_strengths_exact.

Theorem C69_order : forall m, mp_order m <> 0%nat -> List.length (mp_knl m) = S (mp_order m) -> List.length (mp_ksl m) = S (mp_order m) ->
  ((forall x, In x (mp_knl m ++ mp_ksl m) -> x = 0%Q) -> mp_order (multipole_init (multipole_to_dict m)) = mp_order m) /\
  ((exists x, In x (mp_knl m ++ mp_ksl m) /\ (1 # 10000000000000000 < Qabs x)%Q) ->
   mp_order (multipole_init (multipole_to_dict m)) = Nat.max 5 (mp_order m)).
Proof. exact Verif.Proofs.Serialize.multipole_order. Qed.
Print Assumptions C69_order.

(** The same dictionary can be loaded again if there are no functions... *)
Theorem C69_reload : forall e, va_funcs (en_vars e) = [] -> dict_after_load (env_to_dict e) = env_to_dict e.
Proof. exact Verif.Proofs.Serialize.reload_no_functions. Qed.
Print Assumptions C69_reload.

(** ...and never if there is one *)
Theorem C69_reload_refuted : forall e, env_ok e -> va_funcs (en_vars e) <> [] -> env_from_dict (dict_after_load (env_to_dict e)) = Failed.
Proof. exact Verif.Proofs.Serialize.reload_functions. Qed.
Print Assumptions C69_reload_refuted.

(** A line without reference particle gets the one of the environment *)
Theorem C69_reference_refuted : exists e n l n' l', en_lines e = [(n, l)] /\ ln_ref l = None /\
  exists e', env_copy e = Done e' /\ en_lines e' = [(n', l')] /\ ln_ref l' <> None.
Proof.
  exists (Verif.Proofs.SerializeCases.ref_env (Verif.Proofs.SerializeCases.bare_line None)). do 4 eexists. split; [reflexivity|split; [reflexivity|]].
  eexists. split; [exact Verif.Proofs.SerializeCases.ref_appears|]. split; [reflexivity|discriminate].
Qed.
Print Assumptions C69_reference_refuted.

(** A line in compose mode whose reference particle has no t_sim cannot be loaded *)
Theorem C69_compose_refuted : forall e l r p, ln_compose l = true -> ln_names l = Composing -> ln_ref l = Some r -> particle_of e r = Some p -> pt_tsim p = TZero ->
  ~ In "_" (keys (en_elements e)) ->
  (forall n x, In (n, x) (en_elements e) -> element_ok x) -> NoDup (keys (en_particles e)) -> vars_ok (en_vars e) ->
  alone_from_dict (alone_to_dict e l) = Failed.
Proof. exact Verif.Proofs.Serialize.compose_ref_fails. Qed.
Print Assumptions C69_compose_refuted.

(** A deep copy of a line in compose mode loses its components *)
Theorem C69_compose_copy_refuted : forall e l e' l', ln_names l = Composing -> line_copy e l = Done (e', l') ->
  ln_names l' = Names ["_"; "_"; "C"; "O"; "M"; "P"; "O"; "S"; "E"; "_"; "_"] /\ ln_composer l' = None /\ ln_compose l' = false.
Proof. exact Verif.Proofs.Serialize.compose_copy. Qed.
Print Assumptions C69_compose_copy_refuted.

(** Strengths of 1e-16 are lost *)
Theorem C69_weak_refuted : exists m, multipole_init (multipole_to_dict m) <> m /\
  nth_strength (mp_knl (multipole_init (multipole_to_dict m))) 1 <> nth_strength (mp_knl m) 1.
Proof.
  exists Verif.Proofs.SerializeCases.weak. split.
  - intro H. apply (f_equal mp_knl) in H. rewrite Verif.Proofs.SerializeCases.weak_lost in H. discriminate.
  - rewrite Verif.Proofs.SerializeCases.weak_lost. discriminate.
Qed.
Print Assumptions C69_weak_refuted.

Import Verif.Proofs.SerializeCases.
Example C69_case : env_ok (case_env case_func) /\ env_copy (case_env case_func) = Done (plain_env (case_env case_func)) /\ plain_env (case_env case_func) <> case_env case_func.
Proof. split; [exact case_env_ok|]. split; [vm_compute; reflexivity|discriminate]. Qed.
Example C69_compose_case : env_copy compose_env = Failed.
Proof. exact compose_env_fails. Qed.
Example C69_strengths_case : clear (mp_knl short) /\ clear (mp_ksl short) /\
  multipole_init (multipole_to_dict short) = mkMultipole 5 [0; 1; 0; 0; 0; 0]%Q [0; 0; 0; 0; 0; 0]%Q.
Proof.
  split; [left; exists 1%Q; split; [right; left; reflexivity|reflexivity]|].
  split; [right; intros x [<-|[<-|[]]]; reflexivity|exact short_grows].
Qed.

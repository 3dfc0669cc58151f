From Coq Require Import List String Bool Arith QArith Qabs Lia.
Import ListNotations.
From Verif.Model Require Import Serialize.
From Verif.Spec Require Import Serialize.
Local Open Scope string_scope.

(** An environment with a quadrupole, a replica, a variable and a function, and a line with a composer *)
Definition case_particle : particle := mkParticle "p0c=1e9" (TValue "2.5e-5").
Definition case_vars (f : list (string * func)) : variables := mkVariables [("t_turn_s", "1e-3"); ("kq", "0.2")] f "[('element_refs[''q''].k1', 'vars[''kq'']')]".
Definition case_composer : composer :=
  mkComposer [CPlace (mkPlace "q" (Some (QRef "kq+1")) None (Some "start") None); CName "r"; CPlace (mkPlace "r" (Some (QNum "2")) (Some "q") None (Some "end"))]
    (Some "center") (Some (QRef "10*kq")) (Some "1e-6") None.
Definition case_line : line :=
  mkLine (Names ["q"; "r"]) [("XTRACK_MULTIPOLE_NO_SYNRAD", "True")] (set "skip_end_turn_actions" (JBool true) default_extra ++ [("mine", JBlob "1")])%list
    false (Some case_composer) (Some ["q"]) (Some (RefName "proton")) "{'a': 1}".
Definition case_env (f : list (string * func)) : env :=
  mkEnv [("q", Beam (mkElement "Quadrupole" [("length", "0.5"); ("k1", "0.2")] (Some "ap") [("note", "x")] (Some "quad"))); ("r", Replica "q")]
    (Some (RefName "proton")) (case_vars f) (Some [("dataframes", BBFrames [("clockwise", Some "df"); ("anticlockwise", None)]); ("other", BBOther "3")]) "{'b': 2}"
    [("ring", case_line)] [("proton", case_particle)].
Definition case_func : list (string * func) := [("f", mkFunc "FunctionPieceWiseLinear" [("x", "[0,1]"); ("y", "[0,2]")])].
Ltac nodup := cbn; repeat constructor; cbn; intuition discriminate.
Lemma case_vars_ok : vars_ok (case_vars case_func).
Proof.
  repeat split; try nodup.
  - exists ["kq"]. reflexivity.
  - intros n f [E|[]]. injection E as <- <-. cbn. intuition discriminate.
Qed.
Lemma case_line_ok : forall f, line_ok (case_env f) case_line.
Proof.
  intros f. refine (conj eq_refl (conj (ex_intro _ ["q"; "r"] eq_refl) (conj _ (conj _ (conj (ex_intro _ ["mine"] eq_refl) (conj _ _)))))).
  - nodup.
  - nodup.
  - intros c E. injection E as <-. intros p Hp.
    cbn in Hp. destruct Hp as [E|[E|[E|[]]]]; try discriminate; injection E as <-;
      refine (conj _ (conj _ (conj _ _))); cbn [pl_at pl_from pl_anchor pl_from_anchor].
    + intros q t E1 E2. injection E1 as <-. injection E2 as <-. split; [reflexivity|]. cbn. intuition discriminate.
    + discriminate.
    + intros a E. injection E as <-. cbn. tauto.
    + discriminate.
    + intros q t E1 E2. injection E1 as <-. discriminate.
    + intros g E. injection E as <-. reflexivity.
    + discriminate.
    + intros a E. injection E as <-. cbn. tauto.
  - intros r E. injection E as <-. exists case_particle. split; [reflexivity|discriminate].
Qed.
Lemma case_env_ok : env_ok (case_env case_func).
Proof.
  refine (conj _ (conj _ (conj case_vars_ok (conj _ (conj _ _))))).
  - intros n x [E|[E|[]]]; injection E as <- <-; [|exact I]. split; [discriminate|].
    intros k Hk. cbn in Hk. cbn. intuition (subst; try discriminate).
  - nodup.
  - intros b E. injection E as <-. split; [cbn; tauto|]. intros k i [E|[E|[]]]; injection E as <- <-; [reflexivity|discriminate].
  - nodup.
  - intros n l [E|[]]. injection E as <- <-. refine (conj (case_line_ok _) (conj _ _)); [discriminate|]. cbn. intuition discriminate.
Qed.
(** A line without reference particle in an environment that has one gets it on reload *)
Definition bare_line (r : option particle_ref) : line := mkLine (Names []) [] default_extra false None None r "{}".
Definition ref_env (l : line) : env := mkEnv [] (Some (RefParticle case_particle)) (case_vars []) None "{}" [("l", l)] [].
Lemma ref_appears : env_copy (ref_env (bare_line None)) = Done (ref_env (bare_line (Some (RefParticle case_particle)))).
Proof. vm_compute. reflexivity. Qed.
(** An environment with a line in compose mode cannot be loaded if the reference particle has no t_sim *)
Definition compose_line : line := mkLine Composing [] default_extra true (Some case_composer) None (Some (RefName "proton")) "{}".
Definition compose_env : env :=
  mkEnv [("q", Beam (mkElement "Quadrupole" [("length", "0.5")] None [] None)); ("r", Replica "q")] None (case_vars []) None "{}"
    [("l", compose_line)] [("proton", mkParticle "p0c=1e9" TZero)].
Lemma compose_env_fails : env_copy compose_env = Failed.
Proof. vm_compute. reflexivity. Qed.
(** Strengths of 1e-16 and below are lost; lower orders grow to 5 *)
Definition weak : multipole := mkMultipole 5 [0; 1 # 10000000000000000; 0; 0; 0; 0]%Q [0; 0; 0; 0; 0; 0]%Q.
Lemma weak_lost : mp_knl (multipole_init (multipole_to_dict weak)) = [0; 0; 0; 0; 0; 0]%Q.
Proof. vm_compute. reflexivity. Qed.
Definition short : multipole := mkMultipole 1 [0; 1]%Q [0; 0]%Q.
Lemma short_grows : multipole_init (multipole_to_dict short) = mkMultipole 5 [0; 1; 0; 0; 0; 0]%Q [0; 0; 0; 0; 0; 0]%Q.
Proof. vm_compute. reflexivity. Qed.

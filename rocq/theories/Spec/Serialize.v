(** What can be saved and loaded without loss *)
From Coq Require Import List String Bool Arith QArith Qabs.
Import ListNotations.
From Verif.Model Require Import Serialize.
Local Open Scope string_scope.

Definition keys {A} (l : list (string * A)) : list string := map fst l.
(** The names of fields do not hide the keys that to_dict adds *)
Definition element_ok (e : element) : Prop :=
  match e with
  | Beam e => be_class e <> "Replica" /\
              forall k, In k ["__class__"; "name_associated_aperture"; "extra"; "prototype"] -> ~ In k (keys (be_fields e))
  | Replica _ => True
  end.
(** The text of a quantity, if it is a text or a reference *)
Definition text (q : quantity) : option string := match q with QNum _ => None | QText s => Some s | QRef s => Some s end.
Definition anchors : list string := ["center"; "centre"; "start"; "end"].
Definition place_ok (e : env) (p : place) : Prop :=
  (forall q t, pl_at p = Some q -> text q = Some t -> contains_at t = false /\ ~ In t (keys (en_elements e))) /\
  (forall f, pl_from p = Some f -> contains_at f = false) /\
  (forall a, pl_anchor p = Some a -> In a anchors) /\ (forall a, pl_from_anchor p = Some a -> In a anchors).
Definition composer_ok (e : env) (c : composer) : Prop := forall p, In (CPlace p) (co_components c) -> place_ok e p.
(** References to expressions become their texts; a missing anchor, tolerance or mirror flag gets its default *)
Definition text_of (q : quantity) : quantity := match q with QRef s => QText s | q => q end.
Definition plain_place (p : place) : place := mkPlace (pl_name p) (option_map text_of (pl_at p)) (pl_from p) (pl_anchor p) (pl_from_anchor p).
Definition plain_component (c : component) : component := match c with CName n => CName n | CPlace p => CPlace (plain_place p) end.
Definition or {A} (o : option A) (a : A) : option A := match o with Some x => Some x | None => Some a end.
Definition plain_composer (c : composer) : composer :=
  mkComposer (map plain_component (co_components c)) (or (co_refer c) "center") (option_map text_of (co_length c)) (or (co_s_tol c) "1e-6") (or (co_mirror c) false).
Definition plain_line (l : line) : line :=
  mkLine (ln_names l) (ln_config l) (ln_extra l) (ln_compose l) (option_map plain_composer (ln_composer l)) (ln_before_slicing l) (ln_ref l) (ln_metadata l).
Definition plain_env (e : env) : env :=
  mkEnv (en_elements e) (en_ref e) (en_vars e) (en_bb e) (en_metadata e) (map (fun p => (fst p, plain_line (snd p))) (en_lines e)) (en_particles e).
(** Line *)
Definition ref_ok (e : env) (r : particle_ref) : Prop := exists p, particle_of e r = Some p /\ pt_tsim p <> TZero.
Definition line_ok (e : env) (l : line) : Prop :=
  ln_compose l = false /\ (exists nn, ln_names l = Names nn) /\
  NoDup (keys (ln_config l)) /\ NoDup (keys (ln_extra l)) /\ (exists more, keys (ln_extra l) = (keys default_extra ++ more)%list) /\
  (forall c, ln_composer l = Some c -> composer_ok e c) /\
  (forall r, ln_ref l = Some r -> ref_ok e r).
Definition vars_ok (v : variables) : Prop :=
  NoDup (keys (va_values v)) /\ (exists more, keys (va_values v) = "t_turn_s" :: more) /\
  NoDup (keys (va_funcs v)) /\ (forall n f, In (n, f) (va_funcs v) -> ~ In "__class__" (keys (fn_fields f))).
Definition bb_ok (b : list (string * bb_item)) : Prop :=
  In "dataframes" (keys b) /\ forall k i, In (k, i) b -> match i with BBFrames _ => k = "dataframes" | BBOther _ => k <> "dataframes" end.
Definition env_ok (e : env) : Prop :=
  (forall n x, In (n, x) (en_elements e) -> element_ok x) /\
  NoDup (keys (en_particles e)) /\ vars_ok (en_vars e) /\ (forall b, en_bb e = Some b -> bb_ok b) /\
  NoDup (keys (en_lines e)) /\
  (forall n l, In (n, l) (en_lines e) ->
     line_ok e l /\ (ln_ref l = None -> en_ref e = None) /\
     ~ In n (keys (en_elements e)) /\ ~ In n (keys (en_particles e)) /\ ~ In n (keys (va_values (en_vars e)))).
(** The environment that a line saved by itself brings along *)
Definition env_alone (e : env) : env := mkEnv (en_elements e) None (en_vars e) None "{}" [] (en_particles e).
(** Strengths of magnets: two lists are the same up to trailing zeros *)
Definition nth_strength (l : list Q) (i : nat) : Q := nth i l 0%Q.
(** A list has a strength above the threshold of 1e-16, or only zeros *)
Definition clear (l : list Q) : Prop :=
  (exists x, In x l /\ (1 # 10000000000000000 < Qabs x)%Q) \/ (forall x, In x l -> x = 0%Q).

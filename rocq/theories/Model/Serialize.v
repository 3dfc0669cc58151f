(** Saving and loading of environments, lines and elements (xtrack/environment.py, xtrack/line.py, xtrack/base_element.py,
    xtrack/composer/composer.py, xtrack/functions.py). A [blob] stands for data that xobjects, xdeps, numpy or pandas write
    and read back. Dictionaries are lists of pairs in the order of insertion. *)
From Coq Require Import List String Bool Arith QArith Qabs.
From Coq Require Import Ascii.
Import ListNotations.
Local Open Scope string_scope.

Definition blob := string.
Inductive json :=
| JNone | JBool (b : bool) | JStr (s : string) | JBlob (b : blob)
| JList (l : list json) | JObj (l : list (string * json)).
Definition dict := list (string * json).
Fixpoint get {A} (k : string) (d : list (string * A)) : option A :=
  match d with [] => None | (k', v) :: d' => if String.eqb k k' then Some v else get k d' end.
Definition has {A} (k : string) (d : list (string * A)) : bool := match get k d with Some _ => true | None => false end.
(** d[k] = v *)
Fixpoint set {A} (k : string) (v : A) (d : list (string * A)) : list (string * A) :=
  match d with [] => [(k, v)] | (k', v') :: d' => if String.eqb k k' then (k, v) :: d' else (k', v') :: set k v d' end.
(** d.pop(k, None) *)
Definition pop {A} (k : string) (d : list (string * A)) : list (string * A) := filter (fun p => negb (String.eqb k (fst p))) d.
(** d.update(e) *)
Definition update {A} (d e : list (string * A)) : list (string * A) := fold_left (fun d p => set (fst p) (snd p) d) e d.
Fixpoint all_some {A B} (f : A -> option B) (l : list A) : option (list B) :=
  match l with
  | [] => Some []
  | x :: l' => match f x, all_some f l' with Some y, Some r => Some (y :: r) | _, _ => None end
  end.
Definition named {A B} (f : A -> option B) (p : string * A) : option (string * B) :=
  match f (snd p) with Some y => Some (fst p, y) | None => None end.

(** ** Elements *)
Record beam_element := mkElement {
  be_class : string;
  be_fields : list (string * blob);       (* xobjects fields *)
  be_aperture : option string;            (* name_associated_aperture *)
  be_extra : list (string * blob);        (* extra, empty if absent *)
  be_prototype : option string }.
Inductive element := Beam (e : beam_element) | Replica (parent : string).
Definition opt_key {A} (k : string) (f : A -> json) (o : option A) (d : dict) : dict :=
  match o with Some a => set k (f a) d | None => d end.
Definition blobs (l : list (string * blob)) : dict := map (fun p => (fst p, JBlob (snd p))) l.
Definition as_str (j : json) : option string := match j with JStr s => Some s | _ => None end.
Definition as_blob (j : json) : option blob := match j with JBlob b => Some b | _ => None end.
Definition as_obj (j : json) : option dict := match j with JObj d => Some d | _ => None end.
Definition as_list (j : json) : option (list json) := match j with JList l => Some l | _ => None end.
Definition as_bool (j : json) : option bool := match j with JBool b => Some b | _ => None end.
(** BeamElement.to_dict, base_element.py lines 557-565; Replica.to_dict lines 626-629 *)
Definition element_to_dict (e : element) : json :=
  match e with
  | Beam e =>
      let d := ("__class__", JStr (be_class e)) :: blobs (be_fields e) in
      let d := opt_key "name_associated_aperture" JStr (be_aperture e) d in
      let d := match be_extra e with [] => d | x => set "extra" (JObj (blobs x)) d end in
      JObj (opt_key "prototype" JStr (be_prototype e) d)
  | Replica p => JObj [("__class__", JStr "Replica"); ("parent_name", JStr p)]
  end.
(** an optional key, with a reader; None if the value has the wrong form *)
Definition read_opt {A} (k : string) (f : json -> option A) (d : dict) : option (option A) :=
  match get k d with None => Some None | Some j => match f j with Some a => Some (Some a) | None => None end end.
(** _deserialize_element, line.py lines 7627-7633; BeamElement.from_dict, base_element.py lines 567-581. The keys left over are
    the fields of xobjects. *)
Definition element_from_dict (j : json) : option element :=
  match j with
  | JObj d =>
      match get "__class__" d with
      | Some (JStr c) =>
          let d := pop "__class__" d in
          if String.eqb c "Replica" then
            match get "parent_name" d with Some (JStr p) => Some (Replica p) | _ => None end
          else
            match read_opt "name_associated_aperture" as_str d,
                  read_opt "extra" (fun j => match as_obj j with Some o => all_some (named as_blob) o | None => None end) d,
                  read_opt "prototype" as_str d,
                  all_some (named as_blob) (pop "prototype" (pop "extra" (pop "name_associated_aperture" d))) with
            | Some a, Some x, Some p, Some f => Some (Beam (mkElement c f a (match x with Some x => x | None => [] end) p))
            | _, _, _, _ => None
            end
      | _ => None
      end
  | _ => None
  end.

(** ** knl, ksl and order of magnets (beam_elements/_common.py) *)
Record multipole := mkMultipole { mp_order : nat; mp_knl : list Q; mp_ksl : list Q }.
Record multipole_dict := mkMultipoleDict { md_order : option nat; md_knl : option (list Q); md_ksl : option (list Q) }.
Definition tiny (x : Q) : bool := Qle_bool (Qabs x) (1 # 10000000000000000).
(** to_dict, lines 405-417 *)
Definition multipole_to_dict (m : multipole) : multipole_dict :=
  let keep l := if forallb tiny l then None else Some l in
  let k := keep (mp_knl m) in
  let s := keep (mp_ksl m) in
  mkMultipoleDict (match k, s with None, None => if Nat.eqb (mp_order m) 0 then None else Some (mp_order m) | _, _ => None end) k s.
(** __init__, lines 425-450, and _prepare_multipolar_params, lines 516-537 *)
Definition multipole_init (d : multipole_dict) : multipole :=
  let order := match md_order d with Some (S n) => S n | _ => 5%nat end in
  let len o := match o with Some l => List.length l | None => O end in
  let target := Nat.max (S order) (Nat.max (len (md_knl d)) (len (md_ksl d))) in
  let pad o := match o with Some l => (l ++ repeat 0%Q (target - List.length l))%list | None => repeat 0%Q target end in
  mkMultipole (target - 1) (pad (md_knl d)) (pad (md_ksl d)).

(** ** Particles, given by their data and t_sim *)
Inductive t_sim := TZero | TValue (b : blob) | TLength (names : list string) (* revolution time of the elements of these names *).
Record particle := mkParticle { pt_data : blob; pt_tsim : t_sim }.
Inductive particle_ref := RefName (n : string) | RefParticle (p : particle).
Definition tsim_to_dict (t : t_sim) : json :=
  match t with TZero => JNone | TValue b => JBlob b | TLength n => JList (map JStr n) end.
Definition tsim_from_dict (j : json) : option t_sim :=
  match j with
  | JNone => Some TZero | JBlob b => Some (TValue b)
  | JList l => match all_some as_str l with Some n => Some (TLength n) | None => None end
  | _ => None
  end.
Definition particle_to_dict (p : particle) : json := JObj [("data", JBlob (pt_data p)); ("t_sim", tsim_to_dict (pt_tsim p))].
Definition particle_from_dict (j : json) : option particle :=
  match j with
  | JObj d => match get "data" d, get "t_sim" d with
              | Some (JBlob b), Some t => match tsim_from_dict t with Some t => Some (mkParticle b t) | None => None end
              | _, _ => None
              end
  | _ => None
  end.
Definition ref_to_dict (r : particle_ref) : json := match r with RefName n => JStr n | RefParticle p => particle_to_dict p end.
Definition ref_from_dict (j : json) : option particle_ref :=
  match j with JStr n => Some (RefName n) | _ => match particle_from_dict j with Some p => Some (RefParticle p) | None => None end end.

(** ** Composers (composer/composer.py); components that are lines or nested sequences are not modelled *)
Inductive quantity := QNum (b : blob) | QText (s : string) | QRef (formatted : string).
Record place := mkPlace { pl_name : string; pl_at : option quantity; pl_from : option string; pl_anchor : option string; pl_from_anchor : option string }.
Inductive component := CName (n : string) | CPlace (p : place).
Record composer := mkComposer { co_components : list component; co_refer : option string; co_length : option quantity; co_s_tol : option blob; co_mirror : option bool }.
Definition quantity_to_dict (q : quantity) : json := match q with QNum b => JBlob b | QText s => JStr s | QRef s => JStr s end.
Definition quantity_from_dict (j : json) : option quantity := match j with JBlob b => Some (QNum b) | JStr s => Some (QText s) | _ => None end.
(** lines 519-583 *)
Definition component_to_dict (c : component) : json :=
  match c with
  | CName n => JStr n
  | CPlace p =>
      let d := [("name", JStr (pl_name p))] in
      let d := opt_key "at" quantity_to_dict (pl_at p) d in
      let d := opt_key "from_" JStr (pl_from p) d in
      let d := opt_key "anchor" JStr (pl_anchor p) d in
      JObj (opt_key "from_anchor" JStr (pl_from_anchor p) d)
  end.
Definition composer_to_dict (c : composer) : json :=
  let d := [("__class__", JStr "Composer"); ("components", JList (map component_to_dict (co_components c)))] in
  let d := opt_key "refer" JStr (co_refer c) d in
  let d := match co_length c with
           | None => d
           | Some (QRef s) => set "length" (JStr s) d
           | Some q => set "l" (quantity_to_dict q) d
           end in
  let d := opt_key "s_tol" JBlob (co_s_tol c) d in
  JObj (match co_mirror c with Some true => set "mirror" (JBool true) d | _ => d end).
(** Place.__init__ (lines 703-736); [is_element] tells the names of elements in the environment. Texts with an anchor ('q1@end')
    are split when the place is made, so that to_dict does not write them; loading them is not modelled (None). *)
Section Load.
Variable is_element : string -> bool.
Fixpoint contains_at (s : string) : bool :=
  match s with EmptyString => false | String c s' => if Ascii.eqb c "@"%char then true else contains_at s' end.
Definition allowed_anchor (a : option string) : bool :=
  match a with None => true | Some a => existsb (String.eqb a) ["center"; "centre"; "start"; "end"] end.
Definition new_place (name : string) (at_ : option quantity) (from_ anchor from_anchor : option string) : option place :=
  let r := match at_ with
           | Some (QText t) =>
               if contains_at t then None (* an anchor: not in what to_dict writes *)
               else if is_element t then Some (Some (QNum "0"), Some t) else Some (at_, from_)
           | _ => Some (at_, from_)
           end in
  match r with
  | None => None
  | Some (at_, from_) =>
      if match from_ with Some f => contains_at f | None => false end then None
      else if allowed_anchor anchor && allowed_anchor from_anchor then Some (mkPlace name at_ from_ anchor from_anchor) else None
  end.
(** lines 606-639 *)
Definition component_from_dict (j : json) : option component :=
  match j with
  | JStr n => Some (CName n)
  | JObj d =>
      match get "name" d, read_opt "at" quantity_from_dict d, read_opt "from_" as_str d, read_opt "anchor" as_str d, read_opt "from_anchor" as_str d with
      | Some (JStr n), Some a, Some f, Some an, Some fa => match new_place n a f an fa with Some p => Some (CPlace p) | None => None end
      | _, _, _, _, _ => None
      end
  | _ => None
  end.
Definition composer_from_dict (j : json) : option composer :=
  match j with
  | JObj d =>
      match get "components" d,
            (if has "l" d then (if has "length" d then None (* ValueError *) else read_opt "l" quantity_from_dict d) else read_opt "length" quantity_from_dict d),
            read_opt "refer" as_str d, read_opt "s_tol" as_blob d, read_opt "mirror" as_bool d with
      | Some (JList cs), Some l, Some r, Some st, Some m =>
          match all_some component_from_dict cs with
          | Some cs => Some (mkComposer cs (match r with Some r => Some r | None => Some "center" end) l
                              (match st with Some s => Some s | None => Some "1e-6" end) (match m with Some m => Some m | None => Some false end))
          | None => None
          end
      | _, _, _, _, _ => None
      end
  | _ => None
  end.
End Load.

(** ** Lines *)
Inductive names := Names (l : list string) | Composing (* the text '__COMPOSE__' *).
Record line := mkLine {
  ln_names : names; ln_config : list (string * blob); ln_extra : list (string * json);
  ln_compose : bool; (* mode *) ln_composer : option composer; ln_before_slicing : option (list string);
  ln_ref : option particle_ref; ln_metadata : blob }.
Definition names_to_dict (n : names) : json := match n with Names l => JList (map JStr l) | Composing => JStr "__COMPOSE__" end.
(** Line.to_dict (line.py lines 775-830) with include_element_dict and include_var_management false *)
Definition line_to_dict (l : line) : dict :=
  let d := [("__class__", JStr "Line"); ("element_names", names_to_dict (ln_names l)); ("config", JObj (blobs (ln_config l)));
            ("_extra_config", JObj (ln_extra l)); ("mode", JStr (if ln_compose l then "compose" else "normal"))] in
  let d := opt_key "composer" composer_to_dict (ln_composer l) d in
  let d := opt_key "_element_names_before_slicing" (fun n => JList (map JStr n)) (ln_before_slicing l) d in
  let d := opt_key "particle_ref" ref_to_dict (ln_ref l) d in
  set "metadata" (JBlob (ln_metadata l)) d.
(** list('__COMPOSE__') *)
Fixpoint letters (s : string) : list string := match s with EmptyString => [] | String c s' => String c EmptyString :: letters s' end.
(** lines 291-311 *)
Definition default_extra : list (string * json) :=
  [("skip_end_turn_actions", JBool false); ("reset_s_at_end_turn", JBool true); ("matrix_responsiveness_tol", JBlob "1e-15");
   ("matrix_stability_tol", JBlob "2e-3"); ("dt_update_time_dependent_vars", JBlob "0."); ("_t_last_update_time_dependent_vars", JNone);
   ("_radiation_model", JNone); ("_beamstrahlung_model", JNone); ("_bhabha_model", JNone); ("_spin_model", JNone); ("_needs_rng", JBool false);
   ("enable_time_dependent_vars", JBool false); ("twiss_default", JObj []); ("steering_monitors_x", JNone); ("steering_monitors_y", JNone);
   ("steering_correctors_x", JNone); ("steering_correctors_y", JNone); ("corrector_limits_x", JNone); ("corrector_limits_y", JNone);
   ("end_compose_on_reload", JBool true)].
(** The setter of particle_ref (lines 1792-1803), in normal mode: a zero t_sim is replaced, which takes the length of the line *)
Definition set_ref (is_element : string -> bool) (particles : list (string * particle)) (elements : list string) (r : particle_ref)
    : option (particle_ref * list (string * particle)) :=
  let with_tsim p := match pt_tsim p with
                     | TZero => if forallb is_element elements then Some (mkParticle (pt_data p) (TLength elements)) else None (* KeyError *)
                     | _ => Some p
                     end in
  match r with
  | RefParticle p => match with_tsim p with Some p => Some (RefParticle p, particles) | None => None end
  | RefName n => match get n particles with
                 | Some p => match with_tsim p with Some p => Some (r, set n p particles) | None => None end
                 | None => None (* KeyError *)
                 end
  end.
Definition read_names (j : option json) : option (list string) :=
  match j with
  | None => Some []
  | Some (JList l) => all_some as_str l
  | Some (JStr s) => Some (letters s)
  | _ => None
  end.
Inductive loaded (A : Type) := Done (a : A) | Failed | Unmodelled.
Arguments Done {A}. Arguments Failed {A}. Arguments Unmodelled {A}.
Definition bind {A B} (x : loaded A) (f : A -> loaded B) : loaded B := match x with Done a => f a | Failed => Failed | Unmodelled => Unmodelled end.
Definition need {A} (o : option A) : loaded A := match o with Some a => Done a | None => Failed end.
Local Notation "'let*' x := a 'in' b" := (bind a (fun x => b)) (at level 200, x pattern).
Definition or_default {A B} (o : option (option A)) (f : A -> B) (b : B) : option B :=
  match o with Some (Some a) => Some (f a) | Some None => Some b | None => None end.
Definition read_blobs (j : json) : option (list (string * blob)) := match as_obj j with Some o => all_some (named as_blob) o | None => None end.
Definition read_strings (j : json) : option (list string) := match as_list j with Some l => all_some as_str l | None => None end.
(** Line.from_dict (lines 384-506) once the environment is there: [env_ref] is its reference particle and [particles] its particles,
    which the setter of particle_ref can change. The end of the compose mode (lines 499-501) is not modelled; the element called
    energy_program neither (lines 495-497). *)
Definition line_from_dict (is_element : string -> bool) (env_ref : option particle_ref) (particles : list (string * particle)) (d : dict)
    : loaded (line * list (string * particle)) :=
  let* _ := match get "__class__" d with
            | Some (JStr c) => if String.eqb c "Line" then Done tt else Failed (* ValueError *)
            | _ => Done tt
            end in
  let* nn := need (read_names (get "element_names" d)) in
  let* r := need (read_opt "particle_ref" ref_from_dict d) in
  let* rp := match r with
             | Some r => let* p := need (set_ref is_element particles nn r) in Done (Some (fst p), snd p)
             | None => Done (env_ref, particles)
             end in
  let* cfg := need (or_default (read_opt "config" read_blobs d) (update []) []) in
  let* mode := need (or_default (read_opt "mode" as_str d) (String.eqb "compose") false) in
  let* extra := need (or_default (read_opt "_extra_config" as_obj d) (update default_extra) default_extra) in
  let* meta := need (or_default (read_opt "metadata" as_blob d) (fun m => m) "{}") in
  let* before := need (read_opt "_element_names_before_slicing" read_strings d) in
  let* comp := need (read_opt "composer" (composer_from_dict is_element) d) in
  if mode && match get "end_compose_on_reload" extra with Some (JBool false) => false | _ => true end then Unmodelled
  else Done (mkLine (Names nn) cfg extra mode comp before (fst rp) meta, snd rp).

(** ** Environments *)
Record func := mkFunc { fn_class : string; fn_fields : list (string * blob) }.
(** an entry of _bb_config: the dataframes, or anything else *)
Inductive bb_item := BBFrames (l : list (string * option blob)) | BBOther (b : blob).
Record variables := mkVariables { va_values : list (string * blob); va_funcs : list (string * func); va_manager : blob }.
Record env := mkEnv {
  en_elements : list (string * element); en_ref : option particle_ref; en_vars : variables;
  en_bb : option (list (string * bb_item)); en_metadata : blob; en_lines : list (string * line); en_particles : list (string * particle) }.
Definition dict_of {A} (f : A -> json) (l : list (string * A)) : json := JObj (map (fun p => (fst p, f (snd p))) l).
(** Functions.to_dict, functions.py lines 64-70 *)
Definition func_to_dict (f : func) : json := JObj (set "__class__" (JStr (fn_class f)) (blobs (fn_fields f))).
(** _var_management_to_dict, environment.py lines 2232-2240 *)
Definition vars_to_dict (v : variables) : dict :=
  [("_var_management_data", JObj [("var_values", JObj (blobs (va_values v))); ("functions", JObj [("_funcs", dict_of func_to_dict (va_funcs v))])]);
   ("_var_manager", JBlob (va_manager v))].
Definition frame_to_dict (o : option blob) : json := match o with Some b => JObj [("frame", JBlob b)] | None => JNone end.
Definition bb_to_dict (b : bb_item) : json := match b with BBFrames l => dict_of frame_to_dict l | BBOther b => JBlob b end.
(** Line.to_dict always writes the particles of the environment (line.py line 826) *)
Definition line_in_env_to_dict (ps : list (string * particle)) (l : line) : json :=
  JObj (set "env_particles" (dict_of particle_to_dict ps) (line_to_dict l)).
(** Environment.to_dict, lines 1064-1133 *)
Definition env_to_dict (e : env) : dict :=
  let d := [("__class__", JStr "Environment"); ("xtrack_version", JBlob "version"); ("elements", dict_of element_to_dict (en_elements e))] in
  let d := opt_key "particle_ref" ref_to_dict (en_ref e) d in
  let d := update d (vars_to_dict (en_vars e)) in
  let d := opt_key "_bb_config" (dict_of bb_to_dict) (en_bb e) d in
  update d [("metadata", JBlob (en_metadata e)); ("xsuite_data_type", JStr "Environment");
            ("lines", dict_of (line_in_env_to_dict (en_particles e)) (en_lines e));
            ("particles", dict_of particle_to_dict (en_particles e))].
Definition read_dict {A} (f : json -> option A) (j : json) : option (list (string * A)) :=
  match as_obj j with Some o => all_some (named f) o | None => None end.
(** Functions.from_dict, functions.py lines 72-80: KeyError if there is no class *)
Definition func_from_dict (j : json) : option func :=
  match as_obj j with
  | Some d => match get "__class__" d, all_some (named as_blob) (pop "__class__" d) with
              | Some (JStr c), Some f => Some (mkFunc c f)
              | _, _ => None
              end
  | None => None
  end.
(** _make_var_management, lines 3221-3258 *)
Definition vars_from_dict (d : dict) : option variables :=
  let fresh := [("t_turn_s", "0.0")] in
  match get "_var_manager" d with
  | None => Some (mkVariables fresh [] "[]")
  | Some (JBlob m) =>
      match get "_var_management_data" d with
      | Some (JObj v) =>
          match get "var_values" v, get "functions" v with
          | Some vv, Some (JObj f) =>
              match read_blobs vv, get "_funcs" f with
              | Some vv, Some ff => match read_dict func_from_dict ff with
                                    | Some ff => Some (mkVariables (update fresh vv) (update [] ff) m)
                                    | None => None
                                    end
              | _, _ => None
              end
          | _, _ => None
          end
      | _ => None
      end
  | Some _ => None
  end.
Definition frame_from_dict (j : json) : option (option blob) :=
  match j with
  | JNone => Some None
  | JObj d => match get "frame" d with Some (JBlob b) => Some (Some b) | _ => None end
  | _ => None
  end.
Definition bb_from_dict (p : string * json) : option (string * bb_item) :=
  if String.eqb (fst p) "dataframes" then match read_dict frame_from_dict (snd p) with Some l => Some (fst p, BBFrames l) | None => None end
  else match snd p with JBlob b => Some (fst p, BBOther b) | _ => None end.
Definition read_bb (j : json) : option (list (string * bb_item)) :=
  match as_obj j with Some o => if has "dataframes" o then all_some bb_from_dict o else None (* KeyError *) | None => None end.
(** env[name] = line: Environment.__setitem__ (lines 1049-1057), EnvLines.__setitem__ (line 3030) and _check_name_clashes (lines 2242-2253) *)
Definition add_line (n : string) (l : line) (e : env) : option env :=
  if has n (en_lines e) || has n (en_elements e) || has n (en_particles e) || has n (va_values (en_vars e)) then None
  else Some (mkEnv (en_elements e) (en_ref e) (en_vars e) (en_bb e) (en_metadata e) (en_lines e ++ [(n, l)])%list (en_particles e)).
Definition with_particles (e : env) (ps : list (string * particle)) : env :=
  mkEnv (en_elements e) (en_ref e) (en_vars e) (en_bb e) (en_metadata e) (en_lines e) ps.
(** lines 1193-1203 *)
Fixpoint load_lines (ls : dict) (e : env) : loaded env :=
  match ls with
  | [] => Done e
  | (n, j) :: ls' =>
      let* d := need (as_obj j) in
      if has "elements" d || has "_var_manager" d then Failed (* AssertionError *)
      else let* lp := line_from_dict (fun n => has n (en_elements e)) (en_ref e) (en_particles e) d in
           let* e' := need (add_line n (fst lp) (with_particles e (snd lp))) in
           load_lines ls' e'
  end.
(** Environment.from_dict, lines 1137-1222 *)
Definition env_from_dict (d : dict) : loaded env :=
  let* els := need (match get "elements" d with Some j => read_dict element_from_dict j | None => None end) in
  let* ps := need (or_default (read_opt "particles" (read_dict particle_from_dict) d) (update []) []) in
  let* r := need (read_opt "particle_ref" ref_from_dict d) in
  let* v := need (vars_from_dict d) in
  let* ls := need (match get "lines" d with Some j => as_obj j | None => None end) in
  let* e := load_lines ls (mkEnv els r v None "{}" [] ps) in
  let* bb := need (read_opt "_bb_config" read_bb d) in
  let* m := need (or_default (read_opt "metadata" as_blob d) (fun m => m) "{}") in
  Done (mkEnv (en_elements e) (en_ref e) (en_vars e) bb m (en_lines e) (en_particles e)).
(** Environment.copy, lines 827-844 *)
Definition env_copy (e : env) : loaded env := env_from_dict (env_to_dict e).
(** What a load leaves in the dictionary: the classes of the functions are popped (functions.py line 76) *)
Definition pop_classes (j : json) : json :=
  match j with JObj fs => JObj (map (fun p => (fst p, match snd p with JObj f => JObj (pop "__class__" f) | x => x end)) fs) | x => x end.
Definition on_key (k : string) (f : json -> json) (j : json) : json :=
  match j with JObj d => JObj (map (fun p => if String.eqb k (fst p) then (fst p, f (snd p)) else p) d) | x => x end.
Definition dict_after_load (d : dict) : dict :=
  match on_key "_var_management_data" (on_key "functions" (on_key "_funcs" pop_classes)) (JObj d) with JObj d => d | _ => d end.

(** ** A line saved by itself: Line.to_dict and Line.from_dict with their defaults *)
Definition alone_to_dict (e : env) (l : line) : dict :=
  let d := set "elements" (dict_of element_to_dict (en_elements e)) (line_to_dict l) in
  set "env_particles" (dict_of particle_to_dict (en_particles e)) (update d (vars_to_dict (en_vars e))).
Definition alone_from_dict (d : dict) : loaded (env * line) :=
  let* els := need (match get "elements" d with Some j => read_dict element_from_dict j | None => None end) in
  let* v := need (vars_from_dict d) in
  let* ps := need (or_default (read_opt "env_particles" (read_dict particle_from_dict) d) (update []) []) in
  let* lp := line_from_dict (fun n => has n els) None ps d in
  Done (mkEnv els None v None "{}" [] (snd lp), fst lp).

(** ** Line.copy (line.py lines 1171-1252) *)
Definition all_names (n : names) : list string := match n with Names l => l | Composing => letters "__COMPOSE__" end.
Definition particle_of (e : env) (r : particle_ref) : option particle := match r with RefParticle p => Some p | RefName n => get n (en_particles e) end.
Definition line_copy (e : env) (l : line) : loaded (env * line) :=
  let* v := need (vars_from_dict (vars_to_dict (en_vars e))) in
  let* ps := match ln_ref l with
             | Some (RefName n) => let* p := need (get n (en_particles e)) in Done [(n, p)]
             | _ => Done []
             end in
  Done (mkEnv (en_elements e) None v None "{}" [] ps,
        mkLine (Names (all_names (ln_names l))) (update [] (ln_config l)) (update default_extra (ln_extra l)) false None None (ln_ref l) (ln_metadata l)).
Definition shallow_copy (e : env) (l : line) : line :=
  mkLine (Names (all_names (ln_names l))) (update [] (ln_config l)) (update default_extra (ln_extra l)) (ln_compose l)
    (if ln_compose l then ln_composer l else None) None
    (match ln_ref l with Some r => Some r | None => en_ref e end) (ln_metadata l).

(** Reversal of elements and lines: xtrack/environment.py:3109-3191, xtrack/mad_parser/loader.py:787-802. *)
From Coq Require Import Reals List Bool String Arith.
Import ListNotations.
Local Open Scope R_scope.
Local Open Scope string_scope.

(** An element: the name of its class, its scalar attributes (None: hasattr is False) and the arrays
    knl and ksl. A deferred expression stands for its value. *)
Record elem := mkElem { e_class : string; e_field : string -> option R;
                        e_knl : option (list R); e_ksl : option (list R) }.

(** environment.py:3112-3115 *)
Definition supported : list string :=
  ["RBend"; "Bend"; "Quadrupole"; "Sextupole"; "Octupole"; "Multipole"; "Cavity"; "UniformSolenoid";
   "Marker"; "Drift"; "LimitRect"; "LimitEllipse"; "LimitPolygon"; "LimitRectEllipse"; "CrabCavity"].

(** setattr *)
Definition set_field (key : string) (v : R) (e : elem) : elem :=
  mkElem (e_class e) (fun k => if String.eqb k key then Some v else e_field e k) (e_knl e) (e_ksl e).
(** 3126-3132 [_reverse_field]; 3167-3172 for lag; [f]: what is done to the value *)
Definition change_field (f : R -> R) (key : string) (e : elem) : elem :=
  match e_field e key with Some v => set_field key (f v) e | None => e end.
Definition reverse_field : string -> elem -> elem := change_field Ropp.
(** 3134-3150 [_exchange_fields]: both values are read before they are assigned *)
Definition exchange_fields (key1 key2 : string) (e : elem) : elem :=
  let value1 := e_field e key1 in
  let value2 := e_field e key2 in
  let e := match value1 with Some v => set_field key2 v e | None => e end in
  match value2 with Some v => set_field key1 v e | None => e end.
(** 3182-3188: for i in range(1, len, 2), range(0, len, 2) *)
Fixpoint flip_from (flip : bool) (l : list R) : list R :=
  match l with
  | [] => []
  | k :: l => (if flip then - k else k) :: flip_from (negb flip) l
  end.
Definition reverse_knl (e : elem) : elem :=
  mkElem (e_class e) (e_field e) (option_map (flip_from false) (e_knl e)) (e_ksl e).
Definition reverse_ksl (e : elem) : elem :=
  mkElem (e_class e) (e_field e) (e_knl e) (option_map (flip_from true) (e_ksl e)).

(** 3109-3194; [pi]: env.vars['pi']. None: NotImplementedError. *)
Definition reverse_element (pi : R) (e : elem) : option elem :=
  if existsb (String.eqb (e_class e)) supported then
    let e := reverse_field "k0s" e in
    let e := reverse_field "k1" e in
    let e := reverse_field "k2s" e in
    let e := reverse_field "k3" e in
    let e := reverse_field "ks" e in
    let e := reverse_field "ksi" e in
    let e := reverse_field "rot_s_rad" e in
    let e := if String.eqb (e_class e) "CrabCavity" then reverse_field "crab_voltage" e else e in
    let e := reverse_field "lag" e in
    let e := change_field (fun phase => pi - phase) "phase" e in
    let e := reverse_knl e in
    let e := reverse_ksl e in
    let e := exchange_fields "edge_entry_model" "edge_exit_model" e in
    let e := exchange_fields "edge_entry_angle" "edge_exit_angle" e in
    let e := exchange_fields "edge_entry_angle_fdown" "edge_exit_angle_fdown" e in
    let e := exchange_fields "edge_entry_fint" "edge_exit_fint" e in
    let e := exchange_fields "edge_entry_hgap" "edge_exit_hgap" e in
    Some e
  else None.

(** A line: the dictionary of elements and the names. loader.py:791-800: the elements are changed in
    place, name by name, and the list of names is reversed. *)
Definition dict := string -> option elem.
Definition set_elem (d : dict) (n : string) (e : elem) : dict := fun m => if String.eqb m n then Some e else d m.
Fixpoint reverse_names (pi : R) (names : list string) (d : dict) : option dict :=
  match names with
  | [] => Some d
  | n :: names =>
    match d n with
    | None => None
    | Some e => match reverse_element pi e with
                | Some e => reverse_names pi names (set_elem d n e)
                | None => None
                end
    end
  end.
Definition reverse_line (pi : R) (d : dict) (names : list string) : option (dict * list string) :=
  match reverse_names pi names d with Some d => Some (d, rev names) | None => None end.

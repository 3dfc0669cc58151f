(** Twiss tables and initial conditions in the reverse frame: xtrack/twiss/twiss_table.py:340-400, 954-1120,
    xtrack/twiss/twiss_init.py:306-341, xtrack/twiss/strengths.py. Floating point numbers are real numbers. A column of
    numbers is named by its key; the value under the key of a column that the table does not have means nothing. The
    deprecated columns kin_xprime and kin_yprime, the removed columns r11_edw_teng..., R_matrix (set to None) and the rest
    of particle_on_co are left out. *)
From Coq Require Import Reals List Bool String.
From Verif.Model Require Import Lattice.
Import ListNotations.
Local Open Scope R_scope.
Local Open Scope string_scope.

Definition mem (k : string) (keys : list string) : bool := existsb (String.eqb k) keys.
(** out.key = -out.key, for the keys *)
Definition negate (keys : list string) (col : string -> R) : string -> R := fun k => if mem k keys then - col k else col k.

(** Columns of the element: name, strengths and attributes (twiss_table.py:989-996). *)
Record erow := mkE { e_name : string; e_att : string -> R }.
(** The other columns: numbers, complex numbers (f1001...) and W_matrix. *)
Record orow := mkO { o_col : string -> R; o_cpx : string -> R * R; o_W : wmat }.
Record table := mkT {
  t_els : list erow; t_ops : list orow;
  t_entry : bool;               (** values_at == 'entry' *)
  t_markers : bool;             (** only_markers *)
  t_length : option R;          (** line_length; None: no such attribute *)
  t_4d : bool;                  (** qs == 0 *)
  t_reverse : bool;             (** reference_frame == 'reverse' *)
  t_co : string -> R }.         (** particle_on_co *)

(** strengths.py:17-19 *)
Definition sign_flip : list string := ["k0l"; "k2l"; "k4l"; "k1sl"; "k3sl"; "k5sl"; "vkick"; "angle"; "angle_rad"].
(** strengths.py:22-27 *)
Definition reverse_strengths (e : erow) : erow := mkE (e_name e) (negate sign_flip (e_att e)).

(** twiss_table.py:989-996, 1005: array[:-1] = array[:-1][::-1], the last one kept *)
Definition reverse_els (l : list erow) : list erow := rev (removelast l) ++ match l with [] => [] | d :: _ => [last l d] end.
(** 982-986, 997-1008: itake is [:-1] or [1:]; the last one is the former first *)
Definition reverse_ops (markers : bool) (l : list orow) : list orow :=
  match l with
  | [] => []
  | d :: _ => rev (if markers then removelast l else tl l) ++ [d]
  end.

(** 1017-1063, 1075-1076, 1081-1085, 1104-1106 *)
Definition negated : list string :=
  ["x"; "py"; "zeta"; "kin_py"; "kin_yp"; "alfx"; "alfy"; "dx"; "dpy"; "dzeta"; "dpx_zeta"; "dy_zeta";
   "alfx1"; "alfx2"; "alfy1"; "alfy2"; "alfx_edw_teng"; "alfy_edw_teng"; "phix"; "phiy";
   "ax_chrom"; "ay_chrom"; "ddx"; "ddpy"; "spin_x"; "spin_z"].
(** 1059-1063 *)
Definition conjugated : list string := ["f1001"; "f1010"; "f0110"; "f0101"].
Definition conjugate (cpx : string -> R * R) : string -> R * R :=
  fun k => if mem k conjugated then (fst (cpx k), - snd (cpx k)) else cpx k.
(** 1065-1070; twiss_init.py:325-330: rows 0, 3 and 4 *)
Definition negate_rows (v : nat -> R) : nat -> R := fun r => match r with 0%nat | 3%nat | 4%nat => - v r | _ => v r end.
Definition reverse_mode (m : mode) : mode := mkMode (negate_rows (re m)) (negate_rows (im m)).
Definition reverse_W (w : wmat) : wmat := mkW (reverse_mode (w1 w)) (reverse_mode (w2 w)) (reverse_mode (w3 w)).
Definition reverse_row (o : orow) : orow := mkO (negate negated (o_col o)) (conjugate (o_cpx o)) (reverse_W (o_W o)).

(** 1072-1074, 1078-1079: out.key = out.key[0] - out.key, after the rows were reversed and the signs changed *)
Definition cyclical : list string := ["mux"; "muy"; "muzeta"; "dzeta"].
Definition from_first (first : string -> R) (col : string -> R) : string -> R :=
  fun k => if mem k cyclical then first k - col k else col k.
(** 1015: out.s = line_length - out.s *)
Definition set_s (length : R) (col : string -> R) : string -> R := fun k => if String.eqb k "s" then length - col k else col k.
(** 1095-1098 *)
Definition zero_muzeta (four_d : bool) (col : string -> R) : string -> R :=
  fun k => if (four_d && String.eqb k "muzeta")%bool then 0 else col k.
Definition on_col (f : (string -> R) -> string -> R) (o : orow) : orow := mkO (f (o_col o)) (o_cpx o) (o_W o).

(** 1012-1013: np.max(out.s) without attribute line_length *)
Definition max_s (l : list orow) : R :=
  match l with [] => 0 | d :: l' => fold_left (fun m o => Rmax m (o_col o "s")) l' (o_col d "s") end.

(** TwissTable.reverse; None: an assertion fails (974-975) *)
Definition reverse (t : table) : option table :=
  match rev (t_els t), t_ops t with
  | e :: _, _ :: _ =>
    if (t_entry t && String.eqb (e_name e) "_end_point")%bool then
      let ops := reverse_ops (t_markers t) (t_ops t) in
      let length := match t_length t with Some l => l | None => max_s ops end in
      let ops := map (fun o => reverse_row (on_col (set_s length) o)) ops in
      let first := match ops with o :: _ => o_col o | [] => fun _ => 0 end in
      let ops := map (on_col (fun col => zero_muzeta (t_4d t) (from_first first col))) ops in
      Some (mkT (map reverse_strengths (reverse_els (t_els t))) ops (t_entry t) (t_markers t) (t_length t) (t_4d t)
              (negb (t_reverse t)) (negate ["x"; "py"; "zeta"] (t_co t)))
    else None
  | _, _ => None
  end.

(** Initial conditions: the particle, W_matrix, the chromatic functions, the advances and the element. *)
Record init := mkInit { i_part : string -> R; i_W : wmat; i_chrom : string -> R; i_adv : string -> R;
                        i_name : string; i_reverse : bool }.
(** twiss_table.py:340-400 get_twiss_init for the row [e], [o]; the fields of the particle that are not set are those of
    particle_on_co *)
Definition taken : list string := ["x"; "px"; "y"; "py"; "zeta"; "ptau"; "s"; "spin_x"; "spin_y"; "spin_z"].
Definition get_init (t : table) (e : erow) (o : orow) : init :=
  mkInit (fun k => if mem k taken then o_col o k
                   else if String.eqb k "ax" then o_col o "px" - o_col o "kin_px"
                   else if String.eqb k "ay" then o_col o "py" - o_col o "kin_py"
                   else t_co t k)
         (o_W o) (o_col o) (o_col o) (e_name e) (t_reverse t).
(** twiss_init.py:306-341 *)
Definition reverse_init (i : init) : init :=
  mkInit (negate ["x"; "py"; "zeta"; "spin_x"; "spin_z"] (i_part i)) (reverse_W (i_W i))
         (negate ["ax_chrom"; "ay_chrom"; "ddx"; "ddpy"] (i_chrom i)) (fun _ => 0) (i_name i) (negb (i_reverse i)).

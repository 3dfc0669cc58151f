(** Merging and removing multipoles: xtrack/line.py, xtrack/beam_elements/multipole.py.

    Strengths are real numbers. A multipole keeps the attributes which merging and tracking look at;
    delta_taper acts only with synchrotron radiation and is left out. *)
From Coq Require Import Reals ZArith QArith List Bool String Arith.
From Verif.Model Require Import Maps Magnet.
From Verif.Model Require Line LineEdit.
Import ListNotations.
Local Open Scope R_scope.
Local Open Scope list_scope.

(** multipole.py:80-97: the fields of a Multipole; [mp_align]: shift_x, shift_y, shift_s, rot_y_rad (theta),
    rot_x_rad (phi), rot_s_rad_no_frame (psi), rot_shift_anchor, rot_s_rad (tilt) *)
Record mp := mkMp {
  mp_knl : list R; mp_ksl : list R; mp_knl_rel : list R; mp_ksl_rel : list R;
  mp_main_order : nat; mp_main_skew : bool;
  mp_hxl : R; mp_length : R; mp_thick : bool; mp_radiation : Z; mp_align : align }.

(** An element of a line: a Multipole or anything else (number [tag]) *)
Inductive element := EMult (m : mp) | EOther (tag : nat).

Definition dict := list (string * element).
Fixpoint find (d : dict) (n : string) : option element :=
  match d with [] => None | (m, e) :: r => if String.eqb n m then Some e else find r n end.
Definition put (d : dict) (n : string) (e : element) : dict := (n, e) :: d.

(** multipole.py:128-133 *)
Definition main_strength (m : mp) : R :=
  if mp_main_skew m then nth (mp_main_order m) (mp_ksl m) 0 else nth (mp_main_order m) (mp_knl m) 0.

(** _common.py:369-409, get_total_knl_ksl of a Multipole *)
Definition total_size (m : mp) : nat :=
  Nat.max (Nat.max (Nat.max (Nat.max 4 (List.length (mp_knl m))) (List.length (mp_ksl m)))
                   (List.length (mp_knl_rel m))) (List.length (mp_ksl_rel m)).
Definition padded_sum (n : nat) (a b : list R) : list R :=
  map (fun i => nth i a 0 + nth i b 0) (seq 0 n).
Definition total_knl (m : mp) : list R :=
  padded_sum (total_size m) (mp_knl m) (map (fun a => main_strength m * a) (mp_knl_rel m)).
Definition total_ksl (m : mp) : list R :=
  padded_sum (total_size m) (mp_ksl m) (map (fun a => main_strength m * a) (mp_ksl_rel m)).

(** line.py:7659-7660 *)
Definition has_transverse_rotation (m : mp) : bool :=
  negb (is0 (al_phi (mp_align m))) || negb (is0 (al_theta (mp_align m))).

(** line.py:7662-7670; [i]: position of the head of the list *)
Fixpoint last_nonzero (i last : nat) (l : list R) : nat :=
  match l with
  | [] => last
  | v :: r => last_nonzero (S i) (if is0 v then last else Nat.max last i) r
  end.
Definition trimmed (knl ksl : list R) : nat :=
  S (last_nonzero 0 (last_nonzero 0 0 knl) ksl).

(** no misalignment *)
Definition straight : align := mkAlign 0 0 0 0 0 0 0 0.

(** line.py:5660-5677: the strengths of two multipoles together *)
Definition merged (a b : mp) : mp :=
  let oo := Nat.max (Nat.max (Nat.max (List.length (total_knl a)) (List.length (total_ksl a)))
                             (List.length (total_knl b))) (List.length (total_ksl b)) in
  let knl := padded_sum oo (total_knl a) (total_knl b) in
  let ksl := padded_sum oo (total_ksl a) (total_ksl b) in
  let n := trimmed knl ksl in
  mkMp (firstn n knl) (firstn n ksl) [0] [0] 0 false (mp_hxl a) (mp_length a) false (mp_radiation a) straight.

Definition joined (a b : string) : string := (a ++ "_" ++ b)%string.

(** line.py:5651-5659 *)
Definition can_merge (keep : list string) (prev : string) (a : mp) (n : string) (b : mp) : bool :=
  negb (LineEdit.sin keep n) && negb (mp_thick b) && negb (mp_thick a)
  && (is0 (mp_hxl a) && is0 (mp_hxl b))
  && negb (has_transverse_rotation b) && negb (has_transverse_rotation a)
  && negb (LineEdit.sin keep prev).

(** line.py:5646-5686: [prev]: the last name of the new line; the elements of the line are read before
    the loop, the previous element is looked up in the environment. [None]: KeyError *)
Fixpoint merge_from (keep : list string) (d : dict) (prev : string) (line : list (string * element))
    : option (dict * list string) :=
  match line with
  | [] => Some (d, [prev])
  | (n, e) :: r =>
      let append := match merge_from keep d n r with Some (d, l) => Some (d, prev :: l) | None => None end in
      match e with
      | EOther _ => append
      | EMult b =>
          match find d prev with
          | None => None
          | Some (EOther _) => append
          | Some (EMult a) =>
              if can_merge keep prev a n b
              then merge_from keep (put d (joined prev n) (EMult (merged a b))) (joined prev n) r
              else append
          end
      end
  end.

Fixpoint elements (d : dict) (names : list string) : option (list (string * element)) :=
  match names with
  | [] => Some []
  | n :: r => match find d n, elements d r with Some e, Some l => Some ((n, e) :: l) | _, _ => None end
  end.
Definition merge (keep : list string) (d : dict) (names : list string) : option (dict * list string) :=
  match elements d names with
  | None => None
  | Some [] => Some (d, [])
  | Some ((n, _) :: r) => merge_from keep d n r
  end.

(** The first step, replace_all_repeated_elements (line.py:6092-6150, LineEdit.replace_repeated): the
    model of the environment has at each name the position of its element in [d]. *)
Fixpoint numbered (i : nat) (d : dict) : list (string * Line.elem) :=
  match d with [] => [] | (n, _) :: r => (n, Line.EOwn Line.CThin 0%Q i) :: numbered (S i) r end.
Definition content (d : dict) (e : Line.elem) : element :=
  match e with
  | Line.EOwn _ _ i => match nth_error d i with Some (_, e) => e | None => EOther 0 end
  | _ => EOther 0
  end.
Definition replace_repeated (d : dict) (order names : list string) : option (dict * list string) :=
  match LineEdit.replace_repeated "." true (Line.mkEnv (numbered 0 d) 0 []) order names with
  | None => None
  | Some (v, names) => Some (map (fun ne => (fst ne, content d (snd ne))) (Line.en_dict v), names)
  end.

(** line.py:5613-5692 merge_consecutive_multipoles; [order]: the order of list(set(element_names)) *)
Definition merge_consecutive (keep : list string) (d : dict) (order names : list string)
    : option (dict * list string) :=
  match replace_repeated d order names with
  | None => None
  | Some (d, names) => merge keep d names
  end.

(** line.py:5203-5208: a sum of absolute values is zero when all are *)
Definition inactive (m : mp) : bool :=
  negb (mp_thick m && negb (is0 (mp_length m)))
  && is0 (mp_hxl m) && is0 (al_phi (mp_align m)) && is0 (al_theta (mp_align m))
  && forallb is0 (total_knl m) && forallb is0 (total_ksl m).
(** line.py:5169-5215 remove_inactive_multipoles *)
Fixpoint remove_inactive (keep : list string) (line : list (string * element)) : list string :=
  match line with
  | [] => []
  | (n, e) :: r =>
      let gone := match e with EMult m => negb (LineEdit.sin keep n) && inactive m | EOther _ => false end in
      if gone then remove_inactive keep r else n :: remove_inactive keep r
  end.
Definition remove_inactive_multipoles (keep : list string) (d : dict) (names : list string) : option (list string) :=
  match elements d names with Some l => Some (remove_inactive keep l) | None => None end.

(** * Tracking *)

(** multipole.h: the magnet of a Multipole which is not thick: model -1, weight 1 *)
Definition mult_of (knl ksl : list R) : mult :=
  let order := (List.length knl - 1)%nat in mkMult order (/ INR (fact order)) knl ksl.
Definition magnet_of (m : mp) : magnet :=
  mkMag (mp_length m) (mult_of (mp_knl m) (mp_ksl m)) (Some (mult_of (mp_knl_rel m) (mp_ksl_rel m)))
    (main_strength m) 1 (-1) 6 0 3 0 (mp_hxl m) 0 0 0 0 0 0 0 0 0 0 0.

Section Track.
(** the maps of the other elements and of thick multipoles *)
Variable other : nat -> bool -> part -> part.
Variable thick : mp -> bool -> part -> part.
Variable synrad : bool.

Definition track_mult (backtrack : bool) (m : mp) (p : part) : part :=
  if mp_thick m then thick m backtrack p
  else track_aligned synrad (mp_align m) 0 0 backtrack (fun b => thin_slice b 1 (magnet_of m)) p.
Definition track_element (backtrack : bool) (e : element) (p : part) : part :=
  match e with EMult m => track_mult backtrack m p | EOther t => other t backtrack p end.
(** through the elements of a line in the order of tracking *)
Fixpoint track_all (backtrack : bool) (d : dict) (names : list string) (p : part) : option part :=
  match names with
  | [] => Some p
  | n :: r => match find d n with
              | None => None
              | Some e => track_all backtrack d r (track_element backtrack e p)
              end
  end.
Definition track_line (backtrack : bool) (d : dict) (names : list string) (p : part) : option part :=
  track_all backtrack d (if backtrack then rev names else names) p.
End Track.

(** Line.remove_redundant_apertures: xtrack/line.py:5317-5402. *)
From Coq Require Import Reals ZArith List Bool String.
From Verif.Model Require Import Maps Apertures.
Import ListNotations.
Local Open Scope R_scope.

(** An element as the loop sees it, replicas resolved: apertures (line.py:7735-7738) with their shape
    and placement, Marker, drifts (line.py:7719-7726) and everything else. *)
Inductive kind :=
| KAperture (l : limit) (a : align)
| KMarker
| KDrift (model : Z) (length : R)
| KActive.

(** line.py:7792-7803 [_apertures_equal] on apertures: same class and same fields. *)
Definition ellipse_eq_dec (e f : ellipse) : {e = f} + {e <> f}.
Proof. decide equality; apply Req_EM_T. Defined.
Definition point_eq_dec (p q : point) : {p = q} + {p <> q}.
Proof. decide equality; apply Req_EM_T. Defined.
Definition limit_eq_dec (l m : limit) : {l = m} + {l <> m}.
Proof. decide equality; first [apply Req_EM_T|apply ellipse_eq_dec|apply (list_eq_dec point_eq_dec)]. Defined.
Definition align_eq_dec (a b : align) : {a = b} + {a <> b}.
Proof. decide equality; apply Req_EM_T. Defined.
Definition apertures_equal (k1 k2 : kind) : bool :=
  match k1, k2 with
  | KAperture l a, KAperture m b =>
      (if limit_eq_dec l m then true else false) && (if align_eq_dec a b then true else false)
  | _, _ => false
  end.

Section Loop.
(** [self._element_dict], the names in [keep] and in [drifts_that_need_aperture] *)
Variable elem : string -> kind.
Variable keep need : list string.

Definition among (l : list string) (n : string) : bool := existsb (String.eqb n) l.

(** aper_0, aper_m1, aper_m2, aper_to_remove *)
Record loop := mkLoop { aper_0 : option string; aper_m1 : option string; aper_m2 : option string;
                        to_remove : list string }.
(** line.py:5370-5383 *)
Definition seen (st : loop) (nn : string) : loop :=
  match elem nn with
  | KAperture _ _ => mkLoop (Some nn) (aper_0 st) (aper_m1 st) (to_remove st)
  | KActive => mkLoop None None None (to_remove st)
  | _ => if among need nn then mkLoop None None None (to_remove st) else st
  end.
(** line.py:5384-5397 *)
Definition drop_middle (st : loop) : loop :=
  match aper_m2 st, aper_m1 st, aper_0 st with
  | Some m2, Some m1, Some z =>
      if apertures_equal (elem z) (elem m1) && apertures_equal (elem m1) (elem m2) then
        if among keep m1 then st
        else mkLoop (aper_0 st) (aper_m2 st) None (to_remove st ++ [m1])
      else st
  | _, _, _ => st
  end.
Definition redundant (names : list string) : list string :=
  to_remove (fold_left (fun st nn => drop_middle (seen st nn)) names (mkLoop None None None [])).

(** list.remove: the first occurrence; None: ValueError *)
Fixpoint remove_first (n : string) (l : list string) : option (list string) :=
  match l with
  | [] => None
  | m :: l => if String.eqb m n then Some l
              else match remove_first n l with Some l' => Some (m :: l') | None => None end
  end.
Fixpoint remove_all (ns l : list string) : option (list string) :=
  match ns with
  | [] => Some l
  | n :: ns => match remove_first n l with Some l => remove_all ns l | None => None end
  end.
(** line.py:5399-5405 *)
Definition remove_redundant_apertures (names : list string) : option (list string) :=
  remove_all (redundant names) names.
End Loop.

(** Tracking through an aperture: track_local_particle_with_transformations.h:90-200 around the checks
    of limit*.h; None: the particle is lost. *)
Definition aperture_track (synrad cpu : bool) (l : limit) (a : align) (p : part) : option part :=
  if rot_shift_active a then
    let q := entry_straight synrad (al_x a) (al_y a) (al_s a) (al_theta a) (al_phi a) (al_psi a)
               (al_anchor a - 0) (al_tilt a) false p in
    if alive cpu l (p_x q) (p_y q) then
      Some (exit_straight synrad (al_x a) (al_y a) (al_s a) (al_theta a) (al_phi a) (al_psi a)
              (al_anchor a - 0) 0 (al_tilt a) false q)
    else None
  else if alive cpu l (p_x p) (p_y p) then Some p else None.

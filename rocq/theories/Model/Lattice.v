(** Lattice functions from the normal form matrix W at each place (xtrack/twiss/lattice_functions_from_W.py).
    Floating point numbers are real numbers. Columns 2k and 2k+1 of W are the real and imaginary parts of the eigenvector
    of a mode; vectors are functions of the row 0..5 (x, px, y, py, zeta, pzeta). *)
From Coq Require Import Reals List Bool Arith.
From Verif.Model Require Import Maps Curved.
Import ListNotations.
Local Open Scope R_scope.

Record mode := mkMode { re : nat -> R; im : nat -> R }.
Record wmat := mkW { w1 : mode; w2 : mode; w3 : mode }.

(** a @ S @ b, with S of linear_normal_form.py lines 46-51 *)
Definition symp (a b : nat -> R) : R :=
  a 0%nat * b 1%nat - a 1%nat * b 0%nat + (a 2%nat * b 3%nat - a 3%nat * b 2%nat) + (a 4%nat * b 5%nat - a 5%nat * b 4%nat).

(** _renormalize_eigenvectors (lines 191-237) *)
Definition renormalize (m : mode) : mode :=
  let nu := sqrt (Rabs (symp (re m) (im m))) in mkMode (fun r => re m r / nu) (fun r => im m r / nu).
(** lines 31-33 *)
Definition phase (row : nat) (m : mode) : R := atan2 (im m row) (re m row).
(** product with exp(-1j phi), lines 39-42 *)
Definition rotate (phi : R) (m : mode) : mode :=
  mkMode (fun r => re m r * cos phi + im m r * sin phi) (fun r => im m r * cos phi - re m r * sin phi).
Definition to_basis (row : nat) (m : mode) : mode := let m := renormalize m in rotate (phase row m) m.
Definition to_courant_snyder (w : wmat) : wmat := mkW (to_basis 0 (w1 w)) (to_basis 2 (w2 w)) (to_basis 4 (w3 w)).

(** lines 55-73 *)
Definition beta (row : nat) (m : mode) : R := re m row * re m row + im m row * im m row.
Definition alfa (row : nat) (m : mode) : R := - re m row * re m (S row) - im m row * im m (S row).
Definition gama (row : nat) (m : mode) : R := re m (S row) * re m (S row) + im m (S row) * im m (S row).
(** lines 129-147 *)
Definition disp_zeta (row : nat) (m : mode) : R :=
  (re m row - im m row * re m 5%nat / im m 5%nat) / (re m 4%nat - im m 4%nat * re m 5%nat / im m 5%nat).
Definition disp_pzeta (row : nat) (m : mode) : R :=
  (im m row - re m row * im m 4%nat / re m 4%nat) / (im m 5%nat - re m 5%nat * im m 4%nat / re m 4%nat).

Record lattice := mkLattice {
  betx : R; alfx : R; gamx : R; bety : R; alfy : R; gamy : R;
  bety1 : R; alfy1 : R; gamy1 : R; betx2 : R; alfx2 : R; gamx2 : R;
  dx : R; dpx : R; dy : R; dpy : R; dx_zeta : R; dpx_zeta : R; dy_zeta : R; dpy_zeta : R }.
Definition lattice_functions (w : wmat) : lattice :=
  let w := to_courant_snyder w in
  mkLattice (beta 0 (w1 w)) (alfa 0 (w1 w)) (gama 0 (w1 w)) (beta 2 (w2 w)) (alfa 2 (w2 w)) (gama 2 (w2 w))
    (beta 2 (w1 w)) (alfa 2 (w1 w)) (gama 2 (w1 w)) (beta 0 (w2 w)) (alfa 0 (w2 w)) (gama 0 (w2 w))
    (disp_pzeta 0 (w3 w)) (disp_pzeta 1 (w3 w)) (disp_pzeta 2 (w3 w)) (disp_pzeta 3 (w3 w))
    (disp_zeta 0 (w3 w)) (disp_zeta 1 (w3 w)) (disp_zeta 2 (w3 w)) (disp_zeta 3 (w3 w)).

(** Edwards-Teng functions, lines 88-96 *)
Definition g_squared (l : lattice) : R := sqrt (Rmax (betx l * gamx l - alfx l * alfx l) 0).
Definition betx_edw_teng (l : lattice) : R := betx l / g_squared l.
Definition alfx_edw_teng (l : lattice) : R := alfx l / g_squared l.
Definition bety_edw_teng (l : lattice) : R := bety l / g_squared l.
Definition alfy_edw_teng (l : lattice) : R := alfy l / g_squared l.

(** ** _extract_twiss_parameters_with_inverse (lines 240-282) *)
Definition mat := nat -> nat -> R.
Definition sum6 (f : nat -> R) : R := f 0%nat + f 1%nat + f 2%nat + f 3%nat + f 4%nat + f 5%nat.
Definition mul (a b : mat) : mat := fun i j => sum6 (fun k => a i k * b k j).
Definition entries (w : wmat) : mat := fun i j =>
  match j with
  | 0%nat => re (w1 w) i | 1%nat => im (w1 w) i | 2%nat => re (w2 w) i | 3%nat => im (w2 w) i | 4%nat => re (w3 w) i | 5%nat => im (w3 w) i
  | _ => 0
  end.
Definition S_mat : mat := fun i j =>
  match i, j with
  | 0%nat, 1%nat => 1 | 1%nat, 0%nat => -1 | 2%nat, 3%nat => 1 | 3%nat, 2%nat => -1 | 4%nat, 5%nat => 1 | 5%nat, 4%nat => -1 | _, _ => 0
  end.
Definition S_plane (p : nat) : mat := mul S_mat (fun i j => if ((i =? j) && ((i =? 2 * p) || (i =? 2 * p + 1)))%nat then 1 else 0).
(** [inv] is numpy.linalg.inv *)
Definition EE (w inv : mat) (p : nat) : mat := fun i j => - mul (mul (mul w (S_plane p)) inv) S_mat i j.
Definition sign (x : R) : R := if Rlt_dec 0 x then 1 else if Rlt_dec x 0 then -1 else 0.
Record twiss12 := mkTwiss12 {
  i_betx : R; i_alfx : R; i_gamx : R; i_bety : R; i_alfy : R; i_gamy : R;
  i_bety1 : R; i_betx2 : R; i_alfy1 : R; i_alfx2 : R; i_gamy1 : R; i_gamx2 : R }.
Definition with_inverse (w inv : mat) : twiss12 :=
  let e := EE w inv in
  let sx := sign (e 0%nat 0%nat 0%nat) in
  let sy := sign (e 1%nat 2%nat 2%nat) in
  mkTwiss12 (e 0%nat 0%nat 0%nat * sx) (- e 0%nat 0%nat 1%nat * sx) (e 0%nat 1%nat 1%nat * sx)
            (e 1%nat 2%nat 2%nat * sy) (- e 1%nat 2%nat 3%nat * sy) (e 1%nat 3%nat 3%nat * sy)
            (Rabs (e 0%nat 2%nat 2%nat)) (Rabs (e 1%nat 0%nat 0%nat))
            (- e 0%nat 2%nat 3%nat) (- e 1%nat 0%nat 1%nat) (e 0%nat 3%nat 3%nat) (e 1%nat 1%nat 1%nat).

(** ** Phase advance *)
(** Index of the place whose phase is taken, lines 14-27; the loop has the list reversed. *)
Fixpoint take_loop (prev : R) (ii : nat) (acc : list nat) (s : list R) : list nat :=
  match s with
  | [] => acc
  | x :: s' =>
      match acc with
      | h :: t => take_loop x (S ii) (if Rlt_dec prev x then ii :: (ii - 1)%nat :: t else h :: h :: t) s'
      | [] => []
      end
  end.
Definition i_take (s : list R) : list nat :=
  match s with
  | [] => []
  | x :: s' => match take_loop x 1 [0%nat] s' with h :: t => rev ((List.length s' :: t)) | [] => [] end (* the last one is kept *)
  end.
(** numpy.unwrap *)
Definition rmod (x y : R) : R := x - y * IZR (Int_part (x / y)).
Definition correction (dd : R) : R :=
  let ddmod := rmod (dd + PI) (2 * PI) - PI in
  let ddmod := if Req_EM_T ddmod (- PI) then (if Rlt_dec 0 dd then PI else ddmod) else ddmod in
  if Rlt_dec (Rabs dd) PI then 0 else ddmod - dd.
Fixpoint unwrap_loop (prev corr : R) (l : list R) : list R :=
  match l with
  | [] => []
  | p :: l' => let corr := corr + correction (p - prev) in (p + corr) :: unwrap_loop p corr l'
  end.
Definition unwrap (l : list R) : list R := match l with [] => [] | p :: l' => p :: unwrap_loop p 0 l' end.
(** lines 116-125, 149-151 *)
Definition mu_of (s phi : list R) : list R :=
  let mu := map (fun p => p / 2 / PI) (unwrap (map (fun i => nth i phi 0) (i_take s))) in
  map (fun m => m - hd 0 mu) mu.
Definition mu (row : nat) (pick : wmat -> mode) (s : list R) (ws : list wmat) : list R :=
  mu_of s (map (fun w => phase row (renormalize (pick w))) ws).

(** What is expected of twiss tables in the reverse frame. *)
From Coq Require Import Reals List Bool String Arith.
From Verif.Model Require Import Lattice TwissReverse.
Import ListNotations.
Local Open Scope R_scope.
Local Open Scope string_scope.

(** The reverse frame looks along -s with the same vertical: x, zeta and s change sign, so do the slope y' = dy/ds and
    products with an odd number of them. The spin is an axial vector turned by half a turn around y. *)
Definition minus (k : string) : Prop := In k
  ["x"; "zeta"; "py"; "kin_py"; "kin_yp"; "dx"; "ddx"; "dpy"; "ddpy"; "dpx_zeta"; "dy_zeta"; "alfx"; "alfy";
   "alfx1"; "alfx2"; "alfy1"; "alfy2"; "alfx_edw_teng"; "alfy_edw_teng"; "ax_chrom"; "ay_chrom"; "phix"; "phiy"; "spin_x"; "spin_z"].
Definition plus (k : string) : Prop := In k
  ["px"; "y"; "delta"; "ptau"; "kin_px"; "kin_xp"; "betx"; "bety"; "gamx"; "gamy"; "dpx"; "dy"; "ddpx"; "ddy"; "dx_zeta"; "dpy_zeta";
   "betx1"; "betx2"; "bety1"; "bety2"; "gamx1"; "gamx2"; "gamy1"; "gamy2"; "betx_edw_teng"; "bety_edw_teng"; "g_edw_teng";
   "bx_chrom"; "by_chrom"; "spin_y"].
(** The same state of the beam in the two frames *)
Definition mirrored (o o' : orow) : Prop :=
  (forall k, minus k -> o_col o' k = - o_col o k) /\ (forall k, plus k -> o_col o' k = o_col o k) /\
  (forall r, re (w1 (o_W o')) r = (if existsb (Nat.eqb r) [0; 3; 4]%nat then -1 else 1) * re (w1 (o_W o)) r) /\
  (forall r, im (w1 (o_W o')) r = (if existsb (Nat.eqb r) [0; 3; 4]%nat then -1 else 1) * im (w1 (o_W o)) r) /\
  (forall r, re (w2 (o_W o')) r = (if existsb (Nat.eqb r) [0; 3; 4]%nat then -1 else 1) * re (w2 (o_W o)) r) /\
  (forall r, im (w2 (o_W o')) r = (if existsb (Nat.eqb r) [0; 3; 4]%nat then -1 else 1) * im (w2 (o_W o)) r) /\
  (forall r, re (w3 (o_W o')) r = (if existsb (Nat.eqb r) [0; 3; 4]%nat then -1 else 1) * re (w3 (o_W o)) r) /\
  (forall r, im (w3 (o_W o')) r = (if existsb (Nat.eqb r) [0; 3; 4]%nat then -1 else 1) * im (w3 (o_W o)) r).

(** The columns of a row are the lattice functions of its W matrix. *)
Definition columns_of_W (o : orow) : Prop :=
  let l := lattice_functions (o_W o) in let c := o_col o in
  c "betx" = betx l /\ c "alfx" = alfx l /\ c "gamx" = gamx l /\ c "bety" = bety l /\ c "alfy" = alfy l /\ c "gamy" = gamy l /\
  c "bety1" = bety1 l /\ c "alfy1" = alfy1 l /\ c "gamy1" = gamy1 l /\ c "betx2" = betx2 l /\ c "alfx2" = alfx2 l /\ c "gamx2" = gamx2 l /\
  c "dx" = dx l /\ c "dpx" = dpx l /\ c "dy" = dy l /\ c "dpy" = dpy l /\
  c "dx_zeta" = dx_zeta l /\ c "dpx_zeta" = dpx_zeta l /\ c "dy_zeta" = dy_zeta l /\ c "dpy_zeta" = dpy_zeta l /\
  c "betx_edw_teng" = betx_edw_teng l /\ c "alfx_edw_teng" = alfx_edw_teng l /\
  c "bety_edw_teng" = bety_edw_teng l /\ c "alfy_edw_teng" = alfy_edw_teng l.

(** Tables as twiss gives them: one row per element and one for the end, values at the entry of the elements, advances from
    the first row (none in zeta for a 4d twiss), and the length of the line known or s from 0. *)
Definition complete (t : table) : Prop :=
  t_entry t = true /\ (exists els e, t_els t = (els ++ [e])%list /\ e_name e = "_end_point") /\
  List.length (t_ops t) = List.length (t_els t).
Definition from_start (t : table) : Prop :=
  forall o, hd_error (t_ops t) = Some o ->
    o_col o "mux" = 0 /\ o_col o "muy" = 0 /\ o_col o "muzeta" = 0 /\ o_col o "dzeta" = 0 /\
    (t_length t = None -> o_col o "s" = 0 /\ forall o', In o' (t_ops t) -> 0 <= o_col o' "s").
Definition four_d (t : table) : Prop := t_4d t = true -> forall o, In o (t_ops t) -> o_col o "muzeta" = 0.

(** The kick (dpx, dpy) of a thin multipole with strengths k and ks of orders 0 to 5:
    dpx - i dpy = - sum (k_n + i ks_n) (x + i y)^n / n! *)
Fixpoint power (x y : R) (n : nat) : R * R :=
  match n with O => (1, 0) | S n => let (a, b) := power x y n in (a * x - b * y, a * y + b * x) end.
Definition term (k ks : R) (x y : R) (n : nat) : R * R :=
  let (a, b) := power x y n in ((k * a - ks * b) / INR (fact n), (k * b + ks * a) / INR (fact n)).
Definition keys (n : nat) : string * string := nth n
  [("k0l", "k0sl"); ("k1l", "k1sl"); ("k2l", "k2sl"); ("k3l", "k3sl"); ("k4l", "k4sl"); ("k5l", "k5sl")] ("", "").
Definition kick (e : erow) (x y : R) : R * R :=
  let sum f := f 0%nat + f 1%nat + f 2%nat + f 3%nat + f 4%nat + f 5%nat in
  (- sum (fun n => fst (term (e_att e (fst (keys n))) (e_att e (snd (keys n))) x y n)),
   sum (fun n => snd (term (e_att e (fst (keys n))) (e_att e (snd (keys n))) x y n))).

(** Initial conditions for the same state of the beam; s, the name of the element, the frame and the advances (0 in reversed
    initial conditions) apart. *)
Definition same_init (i j : init) : Prop :=
  (forall k, In k ["x"; "px"; "y"; "py"; "zeta"; "ptau"; "spin_x"; "spin_y"; "spin_z"] -> i_part i k = i_part j k) /\
  (forall k, In k ["ax_chrom"; "bx_chrom"; "ay_chrom"; "by_chrom"; "ddx"; "ddpx"; "ddy"; "ddpy"] -> i_chrom i k = i_chrom j k) /\
  i_W i = i_W j /\ i_reverse i = i_reverse j.

(** Linear normal form of a one-turn matrix (xtrack/linear_normal_form.py). Floating point numbers are real numbers;
    numpy.linalg.eig and inv are given by their results. Entries below 1e-14 are not set to zero. *)
From Coq Require Import Reals List Bool Arith.
From Verif.Model Require Import Maps Curved Lattice.
Import ListNotations.
Local Open Scope R_scope.

Definition app (m : mat) (u : nat -> R) : nat -> R := fun i => sum6 (fun k => m i k * u k).
(** An eigenvalue and its eigenvector *)
Record eigen := mkEigen { lam_re : R; lam_im : R; evec : mode }.

(** ** sort_modes (lines 218-266) *)
(** the element of the list with the least |imag(w0[h] + w0[i])|, the first one of these; the list is i :: l *)
Fixpoint partner (w : nat -> R) (h cur : nat) (l : list nat) : nat :=
  match l with
  | [] => cur
  | j :: l' => partner w h (if Rlt_dec (Rabs (w h + w j)) (Rabs (w h + w cur)) then j else cur) l'
  end.
(** lines 225-243: pairs of conjugate modes *)
Definition pairs (w : nat -> R) : list (nat * nat) :=
  match [0; 5; 1; 2; 3; 4]%nat with
  | h0 :: ((i :: l) as rest) =>
      let p0 := partner w h0 i l in
      match remove Nat.eq_dec p0 rest with
      | h1 :: ((i1 :: l1) as rest1) =>
          let p1 := partner w h1 i1 l1 in
          match remove Nat.eq_dec p1 rest1 with
          | [a; b] => [(h0, p0); (h1, p1); (a, b)]
          | _ => []
          end
      | _ => []
      end
  | _ => []
  end.
Definition norm_sign (e : nat -> eigen) (i : nat) : R := symp (re (evec (e i))) (im (evec (e i))).
Definition magnitude (e : nat -> eigen) (i r : nat) : R :=
  sqrt (re (evec (e i)) r * re (evec (e i)) r + im (evec (e i)) r * im (evec (e i)) r).
(** lines 245-253 *)
Definition select (e : nat -> eigen) (p : nat * nat) : nat := if Rlt_dec 0 (norm_sign e (fst p)) then fst p else snd p.
(** lines 255-264 *)
Definition arrange (e : nat -> eigen) (a b c : nat) : nat * nat * nat :=
  let '(a, c) := if Rlt_dec (magnitude e c 5) (magnitude e a 5) then (c, a) else (a, c) in
  let '(b, c) := if Rlt_dec (magnitude e c 5) (magnitude e b 5) then (c, b) else (b, c) in
  let '(a, b) := if Rlt_dec (magnitude e b 2) (magnitude e a 2) then (b, a) else (a, b) in
  (a, b, c).
Definition sort_modes (e : nat -> eigen) : option (nat * nat * nat) :=
  match map (select e) (pairs (fun i => lam_im (e i))) with
  | [a; b; c] => Some (arrange e a b c)
  | _ => None
  end.

(** ** _build_w_matrix_from_eigenvectors (lines 160-192) *)
(** [fixed]: the longitudinal mode with only_4d_block, lines 181-182 *)
Definition column_pair (fixed : bool) (row : nat) (m : mode) : option mode :=
  let m := rotate (phase row m) m in
  let n := if fixed then 1 else symp (re m) (im m) in
  if Rlt_dec 0 n then Some (mkMode (fun r => re m r * (1 / sqrt n)) (fun r => im m r * (1 / sqrt n))) else None (* ValueError *).
Definition build_w (only4d : bool) (e : nat -> eigen) (modes : nat * nat * nat) : option wmat :=
  let '(a, b, c) := modes in
  match column_pair false 0 (evec (e a)), column_pair false 2 (evec (e b)), column_pair only4d 4 (evec (e c)) with
  | Some x, Some y, Some z => Some (mkW x y z)
  | _, _, _ => None
  end.
(** ** get_linear_normal_form (lines 114-147), without the checks *)
Definition angle_of (g : eigen) : R := atan2 (lam_im g) (lam_re g).
Definition rot_blocks (m1 m2 m3 : R) : mat := fun i j =>
  match i, j with
  | 0%nat, 0%nat => cos m1 | 0%nat, 1%nat => sin m1 | 1%nat, 0%nat => - sin m1 | 1%nat, 1%nat => cos m1
  | 2%nat, 2%nat => cos m2 | 2%nat, 3%nat => sin m2 | 3%nat, 2%nat => - sin m2 | 3%nat, 3%nat => cos m2
  | 4%nat, 4%nat => cos m3 | 4%nat, 5%nat => sin m3 | 5%nat, 4%nat => - sin m3 | 5%nat, 5%nat => cos m3
  | _, _ => 0
  end.
(** lines 97-103; [c] and [s] are the cosine and sine of pi/10 *)
Definition block4d (c s : R) (m : mat) : mat := fun i j =>
  if ((i <? 4) && (j <? 4))%nat then m i j
  else if ((i <? 4) || (j <? 4))%nat then 0
  else match i, j with 4%nat, 4%nat => c | 4%nat, 5%nat => s | 5%nat, 4%nat => - s | 5%nat, 5%nat => c | _, _ => 0 end.
Definition normal_form (only4d : bool) (e : nat -> eigen) : option (wmat * mat) :=
  match sort_modes e with
  | Some (a, b, c) =>
      match build_w only4d e (a, b, c) with
      | Some w => Some (w, rot_blocks (angle_of (e a)) (angle_of (e b)) (angle_of (e c)))
      | None => None
      end
  | None => None
  end.

(** ** healy_symplectify (lines 12-44); [inv_plus] is inv(I + M) and [inv_minus] is inv(I - S W). If the determinant of
    I - S W is zero the code calls matmul with a determinant (lines 39-41), which is an error. *)
Definition unit6 : mat := fun i j => if Nat.eqb i j then 1 else 0.
Definition mplus (a b : mat) : mat := fun i j => a i j + b i j.
Definition mminus (a b : mat) : mat := fun i j => a i j - b i j.
Definition healy_w (m inv_plus : mat) : mat :=
  let v := mul S_mat (mul (mminus unit6 m) inv_plus) in fun i j => (v i j + v j i) / 2.
Definition healy (m inv_plus inv_minus : mat) : mat := mul (mplus unit6 (mul S_mat (healy_w m inv_plus))) inv_minus.

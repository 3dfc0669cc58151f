(** Taylor maps: beam_elements/second_order_taylor_map.py, elements_src/second_order_taylor_map.h, firstordertaylormap.h,
    twiss/transfer_matrices.py. Real arithmetic. A vector is a function of the index: x, px, y, py, zeta, pzeta. Tracking through the
    part of the line from start to end is an argument. *)
From Coq Require Import Reals List Arith.
Import ListNotations.
Local Open Scope R_scope.

Definition vec := nat -> R.
Definition six : list nat := [0; 1; 2; 3; 4; 5]%nat.
(** for (ii = 0; ii < 6; ii++) a += f(ii) *)
Definition add6 (a : R) (f : nat -> R) : R := fold_left (fun a i => a + f i) six a.
(** second_order_taylor_map.py:39-44 *)
Record map2 := mkMap { m_k : vec; m_R : nat -> vec; m_T : nat -> nat -> vec; m_length : R }.
(** second_order_taylor_map.h:31-46 *)
Definition apply2 (m : map2) (z : vec) : vec := fun i =>
  let out := m_k m i in
  let out := add6 out (fun j => m_R m i j * z j) in
  fold_left (fun a j => add6 a (fun k => m_T m i j k * z j * z k)) six out.
(** A particle: x, px, y, py, zeta, ptau and beta0, s *)
Record part := mkPart { p_z : vec; p_beta0 : R; p_s : R }.
(** second_order_taylor_map.h:13-59 *)
Definition track2 (m : map2) (p : part) : part :=
  let out := apply2 m (fun i => match i with 5%nat => p_z p 5%nat / p_beta0 p | _ => p_z p i end) in
  mkPart (fun i => match i with 5%nat => out 5%nat * p_beta0 p | _ => out i end) (p_beta0 p) (p_s p + m_length m).
(** firstordertaylormap.h:13-76 *)
Record map1 := mkMap1 { f_m0 : vec; f_m1 : nat -> vec; f_length : R }.
Definition track1 (m : map1) (p : part) : part :=
  let z i := match i with 4%nat => p_z p 4%nat / p_beta0 p | _ => p_z p i end in
  let row i := add6 (f_m0 m i) (fun j => f_m1 m i j * z j) in
  mkPart (fun i => match i with 4%nat => row 4%nat * p_beta0 p | _ => row i end) (p_beta0 p) (p_s p + f_length m).

(** Steps of the finite differences. The step in delta is one in pzeta that depends on pzeta and differs up and down:
    [s_up], [s_down] are what a step in delta changes in pzeta. *)
Record steps := mkS { s_d : nat -> R; s_up : R -> R; s_down : R -> R }.
Definition set (z : vec) (j : nat) (v : R) : vec := fun i => if Nat.eqb i j then v else z i.
Definition up (s : steps) (j : nat) (z : vec) : vec := set z j (z j + match j with 5%nat => s_up s (z j) | _ => s_d s j end).
Definition down (s : steps) (j : nat) (z : vec) : vec := set z j (z j - match j with 5%nat => s_down s (z j) | _ => s_d s j end).
(** transfer_matrices.py:48-64, 96-108; the step of column 5 is dpzeta *)
Definition R_matrix (s : steps) (f : vec -> vec) (z : vec) (i j : nat) : R :=
  (f (up s j z) i - f (down s j z) i) / (2 * match j with 5%nat => (s_up s (z j) + s_down s (z j)) / 2 | _ => s_d s j end).
(** transfer_matrices.py:166-209: [s] given for the outer steps, the inner ones [s0] are the default steps *)
Definition T_matrix (s0 s : steps) (f : vec -> vec) (z : vec) (i j k : nat) : R :=
  1 / 2 * (R_matrix s0 f (up s k z) i j - R_matrix s0 f (down s k z) i j) / (up s k z k - down s k z k).
(** second_order_taylor_map.py:85-118 *)
Definition from_line (s0 : steps) (f : vec -> vec) (co_in co_out : vec) (length : R) : map2 :=
  let RR := R_matrix s0 f co_in in
  let TT := T_matrix s0 s0 f co_in in
  let R_T_fd i j := add6 0 (fun k => TT i j k * co_in k) in
  let K_T_fd i := add6 0 (fun j => R_T_fd i j * co_in j) in
  mkMap (fun i => co_out i - add6 0 (fun j => RR i j * co_in j) + K_T_fd i) (fun i j => RR i j - 2 * R_T_fd i j) TT length.
(** second_order_taylor_map.py:122-167 *)
Definition scale (c : vec) (m : map2) : map2 :=
  mkMap (fun i => m_k m i * c i) (fun i j => m_R m i j * c i * c j) (fun i j k => m_T m i j k * c i * c j * c k) (m_length m).

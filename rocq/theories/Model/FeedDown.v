(** Feed-down of multipoles: xtrack/feed_down.py (one element; the function treats every element of
    the arrays in the same way). Complex numbers are pairs of real numbers. *)
From Coq Require Import Reals List Arith.
Import ListNotations.
Local Open Scope R_scope.

Definition cx := (R * R)%type.
Definition cadd (a b : cx) : cx := (fst a + fst b, snd a + snd b).
Definition csub (a b : cx) : cx := (fst a - fst b, snd a - snd b).
Definition cmul (a b : cx) : cx := (fst a * fst b - snd a * snd b, fst a * snd b + snd a * fst b).
Definition cdivr (a : cx) (r : R) : cx := (fst a / r, snd a / r).
Fixpoint cpow (a : cx) (n : nat) : cx :=
  match n with O => (1, 0) | S k => cmul a (cpow a k) end.
(** np.exp(1j * t) *)
Definition cexpi (t : R) : cx := (cos t, sin t).

(** feed_down.py:101-107, the output of order m. [k]: k_complex *)
Definition fd_order (k : list cx) (b_tilde : cx) (psi : R) (m : nat) : cx :=
  let n_order := length k in
  let p_max := (n_order - m)%nat in
  let series_sum :=
    fold_right (fun p acc => cadd (cmul (cdivr (nth (m + p) k (0, 0)) (INR (fact p))) (cpow b_tilde p)) acc)
      (0, 0) (seq 0 p_max) in
  cmul (cexpi (- (INR (S m) * psi))) series_sum.

(** feed_down.py:feed_down. None: ValueError *)
Definition feed_down (kn kskew : list R) (shift_x shift_y psi x0 y0 : R) (max_output_order : option nat)
  : option (list R * list R) :=
  if Nat.eqb (length kn) (length kskew) then
    let n_order := length kn in
    let n_out := match max_output_order with
                 | None => n_order
                 | Some mo => Nat.min n_order (S mo)
                 end in
    let k_complex := combine kn kskew in
    let z0 := (x0, y0) in
    let delta := (shift_x, shift_y) in
    let rot := cexpi (- psi) in
    let b_tilde := cmul rot (csub z0 delta) in
    let out := map (fd_order k_complex b_tilde psi) (seq 0 n_out) in
    Some (map fst out, map snd out)
  else None.

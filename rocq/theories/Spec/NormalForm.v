(** What a linear normal form is. *)
From Coq Require Import Reals List Bool Arith.
From Verif.Model Require Import Lattice NormalForm.
Local Open Scope R_scope.

(** M v = lambda v *)
Definition eigenpair (m : mat) (g : eigen) : Prop := forall r, (r < 6)%nat ->
  app m (re (evec g)) r = lam_re g * re (evec g) r - lam_im g * im (evec g) r /\
  app m (im (evec g)) r = lam_im g * re (evec g) r + lam_re g * im (evec g) r.
(** On the unit circle *)
Definition stable (g : eigen) : Prop := lam_re g * lam_re g + lam_im g * lam_im g = 1.
Definition symplectic_map (m : mat) : Prop := forall u v, symp (app m u) (app m v) = symp u v.
(** The eigenvalues are three conjugate pairs with different imaginary parts; [other] gives the second one of a pair *)
Definition three_pairs (e : nat -> eigen) (other : nat -> nat) : Prop :=
  forall i, (i < 6)%nat -> (other i < 6)%nat /\ other (other i) = i /\ other i <> i /\
    lam_im (e (other i)) = - lam_im (e i) /\ norm_sign e (other i) = - norm_sign e i /\ norm_sign e i <> 0 /\
    (forall j, (j < 6)%nat -> lam_im (e j) = - lam_im (e i) -> j = other i).
(** Eigenvalues neither equal nor conjugate *)
Definition apart (g h : eigen) : Prop :=
  (lam_re g <> lam_re h \/ lam_im g <> lam_im h) /\ (lam_re g <> lam_re h \/ lam_im g <> - lam_im h).
Definition inverses (a b : mat) : Prop := forall i j, (i < 6)%nat -> (j < 6)%nat -> mul a b i j = unit6 i j /\ mul b a i j = unit6 i j.

From Coq Require Import Reals ZArith Lra Lia List Bool.
From Verif.Model Require Import Maps Curved Magnet.
From Verif.Spec Require Import Frames Magnets.
From Verif.Proofs Require Import Frames FrameMaps.
Import ListNotations.
Local Open Scope R_scope.

(** * Bodies as lists of drifts and kicks *)
Inductive op := D (l : R) | K (w : R).
Definition opneg (o : op) : op := match o with D l => D (- l) | K w => K w end.

Section Run.
Context {A : Type}.
Variables drift kick : R -> A -> A.
Definition step (a : A) (o : op) : A := match o with D l => drift l a | K w => kick w a end.
Definition run (l : list op) (a : A) : A := fold_left step l a.
Lemma run_app l1 l2 a : run (l1 ++ l2) a = run l2 (run l1 a).
Proof. apply fold_left_app. Qed.
Lemma run_times n f l a : (forall b, f b = run l b) -> times n f a = run (concat (repeat l n)) a.
Proof.
  intros H. revert a. induction n as [|n IH]; intros a; [reflexivity|].
  cbn [times repeat concat]. now rewrite run_app, <- H, IH.
Qed.
End Run.

Definition teapot_ops (n : Z) (L : R) : list op :=
  let kw := 1 / IZR n in
  let edge := if Z.ltb 1 n then 1 / IZR (2 * (1 + n)) else 1 / 2 in
  let inside := if Z.ltb 1 n then IZR n / (IZR (n * n) - 1) else 0 in
  [D (edge * L)] ++ concat (repeat [K kw; D (inside * L)] (Z.to_nat (n - 1))) ++ [K kw; D (edge * L)].
Definition uniform_ops (n : Z) (L : R) : list op :=
  let kw := 1 / IZR n in
  concat (repeat [D (1 / 2 * kw * L); K kw; D (1 / 2 * kw * L)] (Z.to_nat n)).
Definition yoshida_ops (n : Z) (L : R) : list op :=
  let m := yoshida_slices n in
  let sl := L / IZR m in
  let kw := 1 / IZR m in
  concat (repeat [D (sl * d0); K (kw * c0); D (sl * d1); K (kw * c1); D (sl * d2); K (kw * c2);
                  D (sl * d3); K (kw * c3); D (sl * d3); K (kw * c2); D (sl * d2); K (kw * c1);
                  D (sl * d1); K (kw * c0); D (sl * d0)] (Z.to_nat m)).
Definition body_ops (od : bool) (i n : Z) (L : R) : list op :=
  if od then [D L]
  else if Z.eqb i 1 then teapot_ops n L
  else if Z.eqb i 3 then uniform_ops n L
  else if Z.eqb i 2 then yoshida_ops n L
  else [].

Lemma body_run {A} (drift kick : R -> A -> A) od i n L a :
  body drift kick od i n L a = run drift kick (body_ops od i n L) a.
Proof.
  unfold body, body_ops. destruct od; [reflexivity|].
  destruct (Z.eqb i 1); [|destruct (Z.eqb i 3); [|destruct (Z.eqb i 2); [|reflexivity]]].
  - unfold teapot, teapot_ops. rewrite !run_app. cbn [run fold_left step List.app].
    match goal with |- context [concat (repeat ?l ?m)] => set (bl := l); set (mm := m) end.
    rewrite <- (run_times drift kick mm (run drift kick bl) bl _ (fun b => eq_refl)). reflexivity.
  - unfold uniform, uniform_ops. apply run_times. reflexivity.
  - unfold yoshida, yoshida_ops. apply run_times. reflexivity.
Qed.

Lemma concat_repeat_comm {T} (l : list T) n : l ++ concat (repeat l n) = concat (repeat l n) ++ l.
Proof.
  induction n as [|n IH]; [now rewrite app_nil_r|]. cbn [repeat concat].
  rewrite <- app_assoc, <- IH. reflexivity.
Qed.
Lemma rev_concat_repeat {T} (l : list T) n : rev (concat (repeat l n)) = concat (repeat (rev l) n).
Proof.
  induction n as [|n IH]; [reflexivity|]. cbn [repeat concat].
  rewrite rev_app_distr, IH. symmetry. apply concat_repeat_comm.
Qed.
Lemma shift_pattern {T} (a b : T) n : concat (repeat [b; a] n) ++ [b] = b :: concat (repeat [a; b] n).
Proof.
  induction n as [|n IH]; [reflexivity|]. cbn [repeat concat List.app]. now rewrite IH.
Qed.
Lemma ops_palindrome od i n L : rev (body_ops od i n L) = body_ops od i n L.
Proof.
  unfold body_ops. destruct od; [reflexivity|].
  destruct (Z.eqb i 1); [|destruct (Z.eqb i 3); [|destruct (Z.eqb i 2); [|reflexivity]]].
  - unfold teapot_ops. set (e := D _). set (k := K _). set (s := D (_ * L)). set (m := Z.to_nat _).
    change [k; e] with ([k] ++ [e]). rewrite (app_assoc _ [k]), shift_pattern.
    rewrite !rev_app_distr. cbn [rev app]. rewrite rev_concat_repeat. cbn [rev List.app].
    change ((concat (repeat [k; s] m) ++ [k]) ++ [e]) with ((concat (repeat [k; s] m) ++ [k]) ++ [e]).
    now rewrite shift_pattern.
  - unfold uniform_ops. rewrite rev_concat_repeat. reflexivity.
  - unfold yoshida_ops. rewrite rev_concat_repeat. reflexivity.
Qed.
Lemma map_concat_repeat {T U} (f : T -> U) l n : map f (concat (repeat l n)) = concat (repeat (map f l) n).
Proof. induction n as [|n IH]; [reflexivity|]. cbn [repeat concat]. now rewrite map_app, IH. Qed.
Lemma ops_neg od i n L : body_ops od i n (- L) = map opneg (body_ops od i n L).
Proof.
  unfold body_ops. destruct od; [reflexivity|].
  assert (E : forall a, a * - L = - (a * L)) by (intros; ring).
  destruct (Z.eqb i 1); [|destruct (Z.eqb i 3); [|destruct (Z.eqb i 2); [|reflexivity]]].
  - unfold teapot_ops. rewrite !map_app, map_concat_repeat. cbn [map opneg]. now rewrite !E.
  - unfold uniform_ops. rewrite map_concat_repeat. cbn [map opneg]. now rewrite !E.
  - unfold yoshida_ops. rewrite map_concat_repeat. cbn [map opneg].
    assert (F : forall a d, - L / a * d = - (L / a * d)) by (intros; unfold Rdiv; ring).
    now rewrite !F.
Qed.

(** Running backwards *)
Section Back.
Context {A : Type}.
Variables drift kick bkick : R -> A -> A.
Variable ok : R -> A -> Prop.
Hypothesis Hd : forall l a, ok l a -> drift (- l) (drift l a) = a.
Hypothesis Hk : forall w a, bkick w (kick w a) = a.

Fixpoint all_ok (l : list op) (a : A) : Prop :=
  match l with
  | [] => True
  | o :: t => match o with D x => ok x a | K _ => True end /\ all_ok t (step drift kick a o)
  end.

Lemma run_back l a : all_ok l a -> run drift bkick (map opneg (rev l)) (run drift kick l a) = a.
Proof.
  revert a. induction l as [|o t IH]; intros a H; [reflexivity|].
  destruct H as [H1 H2]. cbn [rev]. rewrite map_app, run_app.
  change (run drift kick (o :: t) a) with (run drift kick t (step drift kick a o)).
  rewrite (IH _ H2). destruct o; cbn [map opneg run fold_left step]; auto.
Qed.
Lemma body_back od i n L a : all_ok (body_ops od i n L) a ->
  body drift bkick od i n (- L) (body drift kick od i n L a) = a.
Proof.
  intros H. rewrite !body_run, ops_neg, <- (ops_palindrome od i n L) at 1.
  rewrite <- (ops_palindrome od i n L) in H at 1.
  rewrite (ops_palindrome od i n L) in H. now apply run_back.
Qed.
End Back.

(** The watched run *)
Lemma watched d k l p P :
  run (watch_drift d) (watch_kick k) l (p, P)
  = (run (magnet_drift d) (magnet_kick k) l p,
     snd (run (watch_drift d) (watch_kick k) l (p, P))) /\
  (snd (run (watch_drift d) (watch_kick k) l (p, P)) <->
   P /\ all_ok (magnet_drift d) (magnet_kick k) (drift_ok d) l p).
Proof.
  revert p P. induction l as [|o t IH]; intros p P.
  - cbn. tauto.
  - cbn [run fold_left all_ok]. destruct o as [x|w]; cbn [step watch_drift watch_kick fst snd].
    + destruct (IH (magnet_drift d x p) (P /\ drift_ok d x p)) as [E1 E2].
      unfold watch_drift at 2 4 6. cbn [fst snd]. split; [exact E1|]. 
      unfold run in E2. rewrite E2. tauto.
    + destruct (IH (magnet_kick k w p) P) as [E1 E2].
      unfold watch_kick at 2 4 6. cbn [fst snd]. split; [exact E1|].
      unfold run in E2. rewrite E2. tauto.
Qed.

From Coq Require Import Reals List Bool Arith Lra Lia.
From Verif.Model Require Import Maps Curved Lattice NormalForm.
From Verif.Spec Require Import Lattice NormalForm.
From Verif.Proofs Require Import Curved Lattice LatticeInverse.
Import ListNotations.
Local Open Scope R_scope.

(** ** Pairs of modes *)
Lemma partner_in : forall w h l cur, In (partner w h cur l) (cur :: l).
Proof.
  intros w h l. induction l as [|j l IH]; intros cur; cbn [partner]; [left; reflexivity|].
  destruct (Rlt_dec _ _).
  - right. apply IH.
  - destruct (IH cur) as [H|H]; [left; exact H | right; right; exact H].
Qed.
Lemma partner_min : forall w h l cur j, In j (cur :: l) -> Rabs (w h + w (partner w h cur l)) <= Rabs (w h + w j).
Proof.
  intros w h l. induction l as [|i l IH]; intros cur j H; cbn [partner].
  - destruct H as [->|[]]. lra.
  - destruct (Rlt_dec (Rabs (w h + w i)) (Rabs (w h + w cur))) as [L|L].
    + destruct H as [<-|H]; [|apply IH; exact H].
      apply Rle_trans with (Rabs (w h + w i)); [apply IH; left; reflexivity | lra].
    + destruct H as [<-|[<-|H]].
      * apply IH. left. reflexivity.
      * apply Rle_trans with (Rabs (w h + w cur)); [apply IH; left; reflexivity | lra].
      * apply IH. right. exact H.
Qed.
Lemma partner_is : forall e other h cur l, three_pairs e other -> (h < 6)%nat -> In (other h) (cur :: l) -> (forall j, In j (cur :: l) -> (j < 6)%nat) ->
  partner (fun i => lam_im (e i)) h cur l = other h.
Proof.
  intros e other h cur l H Hh Hin Hl. destruct (H h Hh) as (_ & _ & _ & E & _ & _ & U).
  apply U; [apply Hl; apply partner_in|].
  pose proof (partner_min (fun i => lam_im (e i)) h l cur (other h) Hin) as M. cbv beta in M. rewrite E in M.
  replace (lam_im (e h) + - lam_im (e h)) with 0 in M by ring. rewrite Rabs_R0 in M.
  pose proof (Rabs_pos (lam_im (e h) + lam_im (e (partner (fun i => lam_im (e i)) h cur l)))) as P.
  destruct (Req_dec (lam_im (e h) + lam_im (e (partner (fun i => lam_im (e i)) h cur l))) 0) as [Z|Z]; [lra|].
  apply Rabs_pos_lt in Z. lra.
Qed.
Definition closed (other : nat -> nat) (l : list nat) : Prop :=
  NoDup l /\ forall i, In i l -> (i < 6)%nat /\ In (other i) l /\ other i <> i /\ other (other i) = i.
Lemma remove_nodup : forall x l, NoDup l -> NoDup (remove Nat.eq_dec x l).
Proof.
  intros x l H. induction H as [|y l Hn H IH]; cbn [remove]; [constructor|].
  destruct (Nat.eq_dec x y); [exact IH|]. constructor; [|exact IH]. intros C. apply in_remove in C. tauto.
Qed.
Lemma remove_length : forall x l, NoDup l -> In x l -> S (List.length (remove Nat.eq_dec x l)) = List.length l.
Proof.
  intros x l H. induction H as [|y l Hn H IH]; intros Hi; [destruct Hi|]. cbn [remove]. destruct (Nat.eq_dec x y) as [->|N].
  - rewrite notin_remove by exact Hn. reflexivity.
  - destruct Hi as [->|Hi]; [congruence|]. cbn [List.length]. rewrite IH by exact Hi. reflexivity.
Qed.
Lemma closed_step : forall other h rest, closed other (h :: rest) ->
  In (other h) rest /\ closed other (remove Nat.eq_dec (other h) rest) /\ S (List.length (remove Nat.eq_dec (other h) rest)) = List.length rest /\
  (forall i, In i (h :: rest) <-> i = h \/ i = other h \/ In i (remove Nat.eq_dec (other h) rest)).
Proof.
  intros other h rest [N C]. inversion N as [|? ? Hn N' E]; subst. clear N.
  destruct (C h (or_introl eq_refl)) as (Lh & Ih & Nh & Vh). destruct Ih as [Ih|Ih]; [congruence|].
  split; [exact Ih|]. split; [|split].
  - split; [apply remove_nodup; exact N'|]. intros i Hi. apply in_remove in Hi. destruct Hi as [Hi Hne].
    destruct (C i (or_intror Hi)) as (Li & Ii & Ni & Vi). split; [exact Li|]. split; [|split; assumption].
    assert (other i <> h) by (intros Q; apply Hne; rewrite <- Q; symmetry; exact Vi).
    assert (other i <> other h) by (intros Q; apply Hn; rewrite <- Vh, <- Q, Vi; exact Hi).
    destruct Ii as [Ii|Ii]; [congruence|]. apply in_in_remove; assumption.
  - apply remove_length; assumption.
  - intros i. split.
    + intros [<-|Hi]; [left; reflexivity|]. destruct (Nat.eq_dec i (other h)) as [->|Q]; [right; left; reflexivity|].
      right. right. apply in_in_remove; assumption.
    + intros [->|[->|Hi]]; [left; reflexivity | right; exact Ih |]. apply in_remove in Hi. right. tauto.
Qed.
(** the pairs are those of the conjugates *)
Lemma pairs_ok : forall e other, three_pairs e other -> exists a b c,
  pairs (fun i => lam_im (e i)) = [(a, other a); (b, other b); (c, other c)] /\
  (forall i, (i < 6)%nat <-> i = a \/ i = other a \/ i = b \/ i = other b \/ i = c \/ i = other c).
Proof.
  intros e other H.
  assert (C0 : closed other [0; 5; 1; 2; 3; 4]%nat).
  { split.
    - repeat constructor; cbn [In]; lia.
    - intros i Hi. assert (Li : (i < 6)%nat) by (cbn [In] in Hi; lia). destruct (H i Li) as (A & B & D & _).
      split; [exact Li|]. split; [|split; assumption]. cbn [In]. lia. }
  destruct (closed_step _ _ _ C0) as (I0 & C1 & N1 & E0).
  unfold pairs. cbv beta iota zeta. rewrite (partner_is e other) by (try exact H; try exact I0; try lia; intros j Hj; cbn [In] in Hj; lia).
  remember (remove Nat.eq_dec (other 0%nat) [5; 1; 2; 3; 4]%nat) as r eqn:Er. clear Er.
  destruct r as [|h1 [|i1 l1]]; [discriminate N1 | discriminate N1 |].
  destruct (closed_step _ _ _ C1) as (I1 & C2 & N2 & E1).
  cbv beta iota zeta. rewrite (partner_is e other); [|exact H | apply (proj2 C1); left; reflexivity | exact I1 | intros j Hj; apply (proj2 C1); right; exact Hj].
  remember (remove Nat.eq_dec (other h1) (i1 :: l1)) as r eqn:Er. clear Er.
  cbn [List.length] in N1, N2. destruct r as [|a [|b [|x r]]]; cbn [List.length] in N2; [lia | lia | | lia].
  destruct (proj2 C2 a (or_introl eq_refl)) as (_ & Ia & Na & _).
  destruct Ia as [Ia|[Ia|[]]]; [congruence|]. subst b.
  exists 0%nat, h1, a. split; [reflexivity|]. intros i. split.
  - intros Li. assert (X : In i [0; 5; 1; 2; 3; 4]%nat) by (cbn [In]; lia). apply E0 in X. destruct X as [X|[X|X]]; [tauto | tauto |].
    apply E1 in X. cbn [In] in X. destruct X as [X|[X|[X|[X|[]]]]]; subst; tauto.
  - intros X. apply (proj2 C0). apply E0. destruct X as [X|[X|X]]; [tauto | tauto |]. right. right. apply E1. cbn [In].
    destruct X as [X|[X|[X|X]]]; subst; tauto.
Qed.
Lemma select_ok : forall e other a, three_pairs e other -> (a < 6)%nat -> 
  0 < norm_sign e (select e (a, other a)) /\ (select e (a, other a) = a \/ select e (a, other a) = other a) /\
  (forall i, i = a \/ i = other a -> 0 < norm_sign e i -> i = select e (a, other a)).
Proof.
  intros e other a H L. destruct (H a L) as (_ & _ & _ & _ & N & Z & _). unfold select. cbn [fst snd].
  destruct (Rlt_dec 0 (norm_sign e a)) as [P|P].
  - split; [exact P|]. split; [left; reflexivity|]. intros i [->| ->] Q; [reflexivity|]. lra.
  - split; [lra|]. split; [right; reflexivity|]. intros i [->| ->] Q; [lra | reflexivity].
Qed.
Lemma arrange_ok : forall e a b c a' b' c', arrange e a b c = (a', b', c') ->
  (forall i, i = a \/ i = b \/ i = c <-> i = a' \/ i = b' \/ i = c') /\
  magnitude e a' 5 <= magnitude e c' 5 /\ magnitude e b' 5 <= magnitude e c' 5 /\ magnitude e a' 2 <= magnitude e b' 2.
Proof.
  intros e a b c a' b' c'. unfold arrange.
  destruct (Rlt_dec (magnitude e c 5) (magnitude e a 5)).
  - destruct (Rlt_dec (magnitude e a 5) (magnitude e b 5)).
    + destruct (Rlt_dec (magnitude e a 2) (magnitude e c 2)); intros [= <- <- <-]; (split; [intros i; tauto | lra]).
    + destruct (Rlt_dec (magnitude e b 2) (magnitude e c 2)); intros [= <- <- <-]; (split; [intros i; tauto | lra]).
  - destruct (Rlt_dec (magnitude e c 5) (magnitude e b 5)).
    + destruct (Rlt_dec (magnitude e c 2) (magnitude e a 2)); intros [= <- <- <-]; (split; [intros i; tauto | lra]).
    + destruct (Rlt_dec (magnitude e b 2) (magnitude e a 2)); intros [= <- <- <-]; (split; [intros i; tauto | lra]).
Qed.
Theorem modes_ok : forall e other, three_pairs e other -> exists a b c, sort_modes e = Some (a, b, c) /\
  (forall i, (i < 6)%nat /\ 0 < norm_sign e i <-> i = a \/ i = b \/ i = c) /\
  magnitude e a 5 <= magnitude e c 5 /\ magnitude e b 5 <= magnitude e c 5 /\ magnitude e a 2 <= magnitude e b 2.
Proof.
  intros e other H. destruct (pairs_ok e other H) as (a & b & c & Ep & Ec). unfold sort_modes. rewrite Ep. cbn [map].
  assert (La : (a < 6)%nat) by (apply Ec; tauto). assert (Lb : (b < 6)%nat) by (apply Ec; tauto). assert (Lc : (c < 6)%nat) by (apply Ec; tauto).
  destruct (select_ok e other a H La) as (Pa & Sa & Ua). destruct (select_ok e other b H Lb) as (Pb & Sb & Ub). destruct (select_ok e other c H Lc) as (Pc & Sc & Uc).
  set (x := select e (a, other a)) in *. set (y := select e (b, other b)) in *. set (z := select e (c, other c)) in *.
  destruct (arrange e x y z) as [[a' b'] c'] eqn:Ea. exists a', b', c'. split; [reflexivity|].
  destruct (arrange_ok _ _ _ _ _ _ _ Ea) as (Q & M). split; [|exact M].
  intros i. rewrite <- Q. split.
  - intros [Li P]. apply Ec in Li. destruct Li as [X|[X|[X|[X|[X|X]]]]].
    + left. apply Ua; tauto. + left. apply Ua; tauto. + right. left. apply Ub; tauto. + right. left. apply Ub; tauto.
    + right. right. apply Uc; tauto. + right. right. apply Uc; tauto.
  - intros [->|[->| ->]]; (split; [|assumption]); apply Ec.
    + destruct Sa as [-> | ->]; tauto. + destruct Sb as [-> | ->]; tauto. + destruct Sc as [-> | ->]; tauto.
Qed.
(** Three modes: no two are the same *)
Theorem uncoupled_modes : forall e other x y z, three_pairs e other ->
  (x < 6 /\ y < 6 /\ z < 6)%nat -> 0 < norm_sign e x -> 0 < norm_sign e y -> 0 < norm_sign e z ->
  (forall i, (i < 6)%nat -> 0 < norm_sign e i -> i = x \/ i = y \/ i = z) ->
  magnitude e x 5 < magnitude e z 5 -> magnitude e y 5 < magnitude e z 5 -> magnitude e x 2 < magnitude e y 2 ->
  sort_modes e = Some (x, y, z).
Proof.
  intros e other x y z H (Lx & Ly & Lz) Px Py Pz U M1 M2 M3.
  destruct (modes_ok e other H) as (a & b & c & E & I & O1 & O2 & O3). rewrite E.
  assert (Ix : x = a \/ x = b \/ x = c) by (apply I; auto). assert (Iy : y = a \/ y = b \/ y = c) by (apply I; auto).
  assert (Iz : z = a \/ z = b \/ z = c) by (apply I; auto).
  destruct (proj2 (I a) (or_introl eq_refl)) as [La Pa]. destruct (proj2 (I b) (or_intror (or_introl eq_refl))) as [Lb Pb].
  destruct (proj2 (I c) (or_intror (or_intror eq_refl))) as [Lc Pc].
  destruct (U c Lc Pc) as [->|[-> | -> ] ].
  - exfalso. destruct Iz as [->|[->| ->]]; lra.
  - exfalso. destruct Iz as [->|[->| ->]]; lra.
  - destruct Ix as [->|[->| ->]]; [| |lra].
    + destruct Iy as [->|[->| ->]]; [lra | reflexivity | lra].
    + destruct Iy as [->|[->| ->]]; [|lra|lra]. lra.
Qed.

(** ** The matrix *)
Lemma app_combine : forall m u v a b i, app m (fun r => a * u r + b * v r) i = a * app m u i + b * app m v i.
Proof. intros. unfold app, sum6. ring. Qed.
Lemma app_ext : forall m u v i, (forall r, (r < 6)%nat -> u r = v r) -> app m u i = app m v i.
Proof. intros m u v i H. unfold app. apply sum6_ext. intros k L. rewrite H by exact L. reflexivity. Qed.
Lemma rotate_symp : forall th m, symp (re (rotate th m)) (im (rotate th m)) = symp (re m) (im m).
Proof.
  intros th m. pose proof (sin2_cos2 th) as P. unfold Rsqr in P.
  transitivity (symp (re m) (im m) * (sin th * sin th + cos th * cos th)); [unfold symp, rotate; cbn [re im]; ring | rewrite P; ring].
Qed.
(** columns are a positive multiple of the rotated eigenvector *)
Lemma column_form : forall fixed row m t, column_pair fixed row m = Some t -> exists k, 0 < k /\
  (fixed = false -> k * k * symp (re m) (im m) = 1) /\
  (forall r, re t r = k * (re m r * cos (phase row m) + im m r * sin (phase row m))) /\
  (forall r, im t r = k * (im m r * cos (phase row m) - re m r * sin (phase row m))).
Proof.
  intros fixed row m t. unfold column_pair.
  set (n := if fixed then 1 else _). destruct (Rlt_dec 0 n) as [P|P]; [|discriminate]. intros [= <-].
  pose proof (sqrt_lt_R0 _ P) as Sp. exists (1 / sqrt n). split; [|split; [|split]].
  - unfold Rdiv. apply Rmult_lt_0_compat; [lra | apply Rinv_0_lt_compat; exact Sp].
  - intros ->. assert (En : n = symp (re m) (im m)) by (apply rotate_symp). rewrite <- En.
    transitivity (n / (sqrt n * sqrt n)); [field; lra|]. rewrite sqrt_sqrt by lra. field. lra.
  - intros r. cbn [re im rotate]. ring.
  - intros r. cbn [re im rotate]. ring.
Qed.
Lemma angle_cs : forall g, stable g -> cos (angle_of g) = lam_re g /\ sin (angle_of g) = lam_im g.
Proof.
  intros g H. unfold stable in H. unfold angle_of. destruct (atan2_spec (lam_im g) (lam_re g)) as (_ & C & S).
  { destruct (Req_dec (lam_re g) 0) as [Z|Z]; [right; intros Q; rewrite Z, Q in H; lra | left; exact Z]. }
  rewrite C, S. rewrite (sqrt_is _ 1) by lra. split; field.
Qed.
Lemma column_turn : forall m g fixed row t, eigenpair m g -> stable g -> column_pair fixed row (evec g) = Some t -> forall r, (r < 6)%nat ->
  app m (re t) r = cos (angle_of g) * re t r - sin (angle_of g) * im t r /\
  app m (im t) r = sin (angle_of g) * re t r + cos (angle_of g) * im t r.
Proof.
  intros m g fixed row t E S C r L. destruct (column_form _ _ _ _ C) as (k & _ & _ & Fr & Fi). destruct (angle_cs g S) as [-> ->].
  destruct (E r L) as [Er Ei]. set (c := cos _) in *. set (s := sin _) in *. split.
  - rewrite (app_ext m (re t) (fun r => k * c * re (evec g) r + k * s * im (evec g) r)) by (intros q _; rewrite Fr; ring).
    rewrite app_combine, Er, Ei, Fr, Fi. ring.
  - rewrite (app_ext m (im t) (fun r => (- (k * s)) * re (evec g) r + k * c * im (evec g) r)) by (intros q _; rewrite Fi; ring).
    rewrite app_combine, Er, Ei, Fr, Fi. ring.
Qed.
Lemma normal_form_inv : forall only4d e w R, normal_form only4d e = Some (w, R) -> exists a b c, sort_modes e = Some (a, b, c) /\
  column_pair false 0 (evec (e a)) = Some (w1 w) /\ column_pair false 2 (evec (e b)) = Some (w2 w) /\ column_pair only4d 4 (evec (e c)) = Some (w3 w) /\
  R = rot_blocks (angle_of (e a)) (angle_of (e b)) (angle_of (e c)).
Proof.
  intros only4d e w R. unfold normal_form, build_w. destruct (sort_modes e) as [[[a b] c]|]; [|discriminate].
  destruct (column_pair false 0 (evec (e a))) as [x|] eqn:X; [|discriminate]. destruct (column_pair false 2 (evec (e b))) as [y|] eqn:Y; [|discriminate].
  destruct (column_pair only4d 4 (evec (e c))) as [z|] eqn:Z; [|discriminate]. intros [= <- <-].
  exists a, b, c. rewrite X, Y, Z. repeat split.
Qed.
Theorem normal_form_turn : forall only4d m e a b c w R, normal_form only4d e = Some (w, R) -> sort_modes e = Some (a, b, c) ->
  (forall i, i = a \/ i = b \/ i = c -> eigenpair m (e i) /\ stable (e i)) ->
  (forall i j, (i < 6)%nat -> (j < 6)%nat -> mul m (entries w) i j = mul (entries w) R i j) /\
  R = rot_blocks (angle_of (e a)) (angle_of (e b)) (angle_of (e c)).
Proof.
  intros only4d m e a b c w R H Hs He. destruct (normal_form_inv _ _ _ _ H) as (a' & b' & c' & Hs' & X & Y & Z & ->).
  rewrite Hs in Hs'. injection Hs' as <- <- <-. split; [|reflexivity].
  destruct (He a ltac:(auto)) as [Ea Sa]. destruct (He b ltac:(auto)) as [Eb Sb]. destruct (He c ltac:(auto)) as [Ec Sc].
  pose proof (column_turn _ _ _ _ _ Ea Sa X) as Tx. pose proof (column_turn _ _ _ _ _ Eb Sb Y) as Ty. pose proof (column_turn _ _ _ _ _ Ec Sc Z) as Tz.
  intros i j Li Lj. specialize (Tx i Li). specialize (Ty i Li). specialize (Tz i Li).
  destruct Tx as [Tx1 Tx2], Ty as [Ty1 Ty2], Tz as [Tz1 Tz2]. unfold app in *. revert j Lj. apply lt6.
  - transitivity (sum6 (fun k => m i k * re (w1 w) k)); [reflexivity|]. rewrite Tx1. unfold mul, sum6, entries, rot_blocks. ring.
  - transitivity (sum6 (fun k => m i k * im (w1 w) k)); [reflexivity|]. rewrite Tx2. unfold mul, sum6, entries, rot_blocks. ring.
  - transitivity (sum6 (fun k => m i k * re (w2 w) k)); [reflexivity|]. rewrite Ty1. unfold mul, sum6, entries, rot_blocks. ring.
  - transitivity (sum6 (fun k => m i k * im (w2 w) k)); [reflexivity|]. rewrite Ty2. unfold mul, sum6, entries, rot_blocks. ring.
  - transitivity (sum6 (fun k => m i k * re (w3 w) k)); [reflexivity|]. rewrite Tz1. unfold mul, sum6, entries, rot_blocks. ring.
  - transitivity (sum6 (fun k => m i k * im (w3 w) k)); [reflexivity|]. rewrite Tz2. unfold mul, sum6, entries, rot_blocks. ring.
Qed.

(** Modes of different eigenvalues are orthogonal *)
Lemma unit_zero : forall c s x y, c * c + s * s = 1 -> (c <> 1 \/ s <> 0) -> c * x - s * y = x -> s * x + c * y = y -> x = 0 /\ y = 0.
Proof.
  intros c s x y H N E F.
  assert (D : (c - 1) * (c - 1) + s * s <> 0).
  { intros Q. pose proof (Rle_0_sqr (c - 1)) as P1. pose proof (Rle_0_sqr s) as P2. unfold Rsqr in *.
    assert (Z1 : (c - 1) * (c - 1) = 0) by lra. assert (Z2 : s * s = 0) by lra.
    apply Rmult_integral in Z1. apply Rmult_integral in Z2. destruct N as [N|N]; apply N; destruct Z1, Z2; lra. }
  assert (X : ((c - 1) * (c - 1) + s * s) * x = 0).
  { transitivity ((c - 1) * ((c * x - s * y) - x) + s * ((s * x + c * y) - y)); [ring|]. rewrite E, F. ring. }
  assert (Y : ((c - 1) * (c - 1) + s * s) * y = 0).
  { transitivity ((c - 1) * ((s * x + c * y) - y) - s * ((c * x - s * y) - x)); [ring|]. rewrite E, F. ring. }
  apply Rmult_integral in X. apply Rmult_integral in Y. tauto.
Qed.
Lemma symp_ext6 : forall f f' g g', (forall r, (r < 6)%nat -> f r = f' r) -> (forall r, (r < 6)%nat -> g r = g' r) -> symp f g = symp f' g'.
Proof. intros f f' g g' F G. unfold symp. rewrite !F, !G by lia. reflexivity. Qed.
Lemma symp_lin : forall a b c d u v x y, symp (fun r => a * u r + b * v r) (fun r => c * x r + d * y r) =
  a * c * symp u x + a * d * symp u y + b * c * symp v x + b * d * symp v y.
Proof. intros. unfold symp. ring. Qed.
Lemma orthogonal : forall m g h, symplectic_map m -> eigenpair m g -> eigenpair m h -> stable g -> stable h -> apart g h ->
  symp (re (evec g)) (re (evec h)) = 0 /\ symp (re (evec g)) (im (evec h)) = 0 /\
  symp (im (evec g)) (re (evec h)) = 0 /\ symp (im (evec g)) (im (evec h)) = 0.
Proof.
  intros m g h S Eg Eh Hg Hh [N1 N2]. unfold stable in *.
  set (a := re (evec g)) in *. set (b := im (evec g)) in *. set (x := re (evec h)) in *. set (y := im (evec h)) in *.
  set (p := lam_re g) in *. set (q := lam_im g) in *. set (u := lam_re h) in *. set (v := lam_im h) in *.
  assert (R1 : forall r, (r < 6)%nat -> app m a r = p * a r + (- q) * b r) by (intros r L; destruct (Eg r L) as [Q _]; fold a b p q in Q; rewrite Q; ring).
  assert (R2 : forall r, (r < 6)%nat -> app m b r = q * a r + p * b r) by (intros r L; destruct (Eg r L) as [_ Q]; fold a b p q in Q; rewrite Q; ring).
  assert (R3 : forall r, (r < 6)%nat -> app m x r = u * x r + (- v) * y r) by (intros r L; destruct (Eh r L) as [Q _]; fold x y u v in Q; rewrite Q; ring).
  assert (R4 : forall r, (r < 6)%nat -> app m y r = v * x r + u * y r) by (intros r L; destruct (Eh r L) as [_ Q]; fold x y u v in Q; rewrite Q; ring).
  pose proof (S a x) as Q1. rewrite (symp_ext6 _ _ _ _ R1 R3), symp_lin in Q1.
  pose proof (S a y) as Q2. rewrite (symp_ext6 _ _ _ _ R1 R4), symp_lin in Q2.
  pose proof (S b x) as Q3. rewrite (symp_ext6 _ _ _ _ R2 R3), symp_lin in Q3.
  pose proof (S b y) as Q4. rewrite (symp_ext6 _ _ _ _ R2 R4), symp_lin in Q4.
  set (ax := symp a x) in *. set (ay := symp a y) in *. set (bx := symp b x) in *. set (yb := symp b y) in *.
  (* lambda mu *)
  assert (N3 : p * u - q * v <> 1 \/ p * v + q * u <> 0).
  { destruct (Req_dec (p * u - q * v) 1) as [Z1|Z1]; [|left; exact Z1]. right. intros Z2.
    assert (X1 : p = u). { transitivity ((p * u - q * v) * u + (p * v + q * u) * v); [|rewrite Z1, Z2; ring]. transitivity (p * (u * u + v * v)); [rewrite Hh; ring | ring]. }
    assert (X2 : q = - v). { transitivity ((p * v + q * u) * u - (p * u - q * v) * v); [|rewrite Z1, Z2; ring]. transitivity (q * (u * u + v * v)); [rewrite Hh; ring | ring]. }
    destruct N2; congruence. }
  assert (N4 : p * u + q * v <> 1 \/ p * v - q * u <> 0).
  { destruct (Req_dec (p * u + q * v) 1) as [Z1|Z1]; [|left; exact Z1]. right. intros Z2.
    assert (X1 : p = u). { transitivity ((p * u + q * v) * u + (p * v - q * u) * v); [|rewrite Z1, Z2; ring]. transitivity (p * (u * u + v * v)); [rewrite Hh; ring | ring]. }
    assert (X2 : q = v). { transitivity ((p * u + q * v) * v - (p * v - q * u) * u); [|rewrite Z1, Z2; ring]. transitivity (q * (u * u + v * v)); [rewrite Hh; ring | ring]. }
    destruct N1; congruence. }
  destruct (unit_zero (p * u - q * v) (p * v + q * u) (ax - yb) (ay + bx)) as [Z1 Z2].
  { transitivity ((p * p + q * q) * (u * u + v * v)); [ring | rewrite Hg, Hh; ring]. }
  { exact N3. }
  { lra. }
  { lra. }
  destruct (unit_zero (p * u + q * v) (p * v - q * u) (ax + yb) (ay - bx)) as [Z3 Z4].
  { transitivity ((p * p + q * q) * (u * u + v * v)); [ring | rewrite Hg, Hh; ring]. }
  { exact N4. }
  { lra. }
  { lra. }
  repeat split; lra.
Qed.
Lemma column_cross : forall f f' row row' m n t s, column_pair f row m = Some t -> column_pair f' row' n = Some s ->
  symp (re m) (re n) = 0 /\ symp (re m) (im n) = 0 /\ symp (im m) (re n) = 0 /\ symp (im m) (im n) = 0 ->
  symp (re t) (re s) = 0 /\ symp (re t) (im s) = 0 /\ symp (im t) (re s) = 0 /\ symp (im t) (im s) = 0.
Proof.
  intros f f' row row' m n t s Ht Hs (A & B & C & D).
  destruct (column_form _ _ _ _ Ht) as (k & _ & _ & Fr & Fi). destruct (column_form _ _ _ _ Hs) as (l & _ & _ & Gr & Gi).
  set (c := cos (phase row m)) in *. set (q := sin (phase row m)) in *. set (c' := cos (phase row' n)) in *. set (q' := sin (phase row' n)) in *.
  assert (Fr' : forall r, (r < 6)%nat -> re t r = (k * c) * re m r + (k * q) * im m r) by (intros r _; rewrite Fr; ring).
  assert (Fi' : forall r, (r < 6)%nat -> im t r = (- (k * q)) * re m r + (k * c) * im m r) by (intros r _; rewrite Fi; ring).
  assert (Gr' : forall r, (r < 6)%nat -> re s r = (l * c') * re n r + (l * q') * im n r) by (intros r _; rewrite Gr; ring).
  assert (Gi' : forall r, (r < 6)%nat -> im s r = (- (l * q')) * re n r + (l * c') * im n r) by (intros r _; rewrite Gi; ring).
  rewrite (symp_ext6 _ _ _ _ Fr' Gr'), (symp_ext6 _ _ _ _ Fr' Gi'), (symp_ext6 _ _ _ _ Fi' Gr'), (symp_ext6 _ _ _ _ Fi' Gi').
  rewrite !symp_lin, A, B, C, D. repeat split; ring.
Qed.
Lemma column_self : forall row m t, column_pair false row m = Some t -> symp (re t) (im t) = 1.
Proof.
  intros row m t H. destruct (column_form _ _ _ _ H) as (k & _ & K & Fr & Fi). specialize (K eq_refl).
  set (c := cos (phase row m)) in *. set (q := sin (phase row m)) in *.
  assert (P : q * q + c * c = 1) by apply sin2_cos2.
  rewrite <- K. transitivity (k * k * symp (re m) (im m) * (q * q + c * c)); [|rewrite P; ring].
  unfold symp. rewrite !Fr, !Fi. ring.
Qed.
Theorem normal_form_symplectic : forall m e a b c w R, normal_form false e = Some (w, R) -> sort_modes e = Some (a, b, c) -> symplectic_map m ->
  (forall i, i = a \/ i = b \/ i = c -> eigenpair m (e i) /\ stable (e i)) ->
  apart (e a) (e b) -> apart (e a) (e c) -> apart (e b) (e c) -> symplectic w.
Proof.
  intros m e a b c w R H Hs S He A1 A2 A3. destruct (normal_form_inv _ _ _ _ H) as (a' & b' & c' & Hs' & X & Y & Z & ->).
  rewrite Hs in Hs'. injection Hs' as <- <- <-.
  destruct (He a ltac:(auto)) as [Ea Sa]. destruct (He b ltac:(auto)) as [Eb Sb]. destruct (He c ltac:(auto)) as [Ec Sc].
  pose proof (column_cross _ _ _ _ _ _ _ _ X Y (orthogonal m _ _ S Ea Eb Sa Sb A1)) as (B1 & B2 & B3 & B4).
  pose proof (column_cross _ _ _ _ _ _ _ _ X Z (orthogonal m _ _ S Ea Ec Sa Sc A2)) as (C1 & C2 & C3 & C4).
  pose proof (column_cross _ _ _ _ _ _ _ _ Y Z (orthogonal m _ _ S Eb Ec Sb Sc A3)) as (D1 & D2 & D3 & D4).
  pose proof (column_self _ _ _ X). pose proof (column_self _ _ _ Y). pose proof (column_self _ _ _ Z).
  unfold symplectic. repeat split; assumption.
Qed.
(** The result is there for three pairs *)
Theorem normal_form_defined : forall only4d e other, three_pairs e other -> exists w R, normal_form only4d e = Some (w, R).
Proof.
  intros only4d e other H. destruct (modes_ok e other H) as (a & b & c & E & I & _). unfold normal_form, build_w. rewrite E.
  assert (P : forall f row i, i = a \/ i = b \/ i = c -> exists t, column_pair f row (evec (e i)) = Some t).
  { intros f row i Hi. apply I in Hi. destruct Hi as [_ P]. unfold column_pair. rewrite rotate_symp. destruct f.
    - destruct (Rlt_dec 0 1); [eexists; reflexivity | lra].
    - unfold norm_sign in P. destruct (Rlt_dec 0 (symp (re (evec (e i))) (im (evec (e i))))); [eexists; reflexivity | contradiction]. }
  destruct (P false 0%nat a ltac:(auto)) as [x ->]. destruct (P false 2%nat b ltac:(auto)) as [y ->]. destruct (P only4d 4%nat c ltac:(auto)) as [z ->].
  eexists. eexists. reflexivity.
Qed.
(** Rows x, y, zeta of the imaginary parts are zero and those of the real parts are not negative *)
Lemma column_gauge : forall f row m t, column_pair f row m = Some t -> im t row = 0 /\ 0 <= re t row.
Proof.
  intros f row m t H. destruct (column_form _ _ _ _ H) as (k & Kp & _ & Fr & Fi). rewrite Fr, Fi.
  destruct (Req_dec (re m row) 0) as [Z1|Z1]; [destruct (Req_dec (im m row) 0) as [Z2|Z2]|].
  - rewrite Z1, Z2. lra.
  - destruct (atan2_spec (im m row) (re m row) ltac:(right; exact Z2)) as (Lp & C & S). unfold phase. rewrite C, S.
    set (l := sqrt _) in *. assert (Sq : l * l = re m row * re m row + im m row * im m row) by (apply sqrt_sqrt; nra). split.
    + field. lra.
    + apply Rle_trans with (k * l); [nra|]. right. transitivity (k * ((re m row * re m row + im m row * im m row) / l)); [rewrite <- Sq; field; lra | field; lra].
  - destruct (atan2_spec (im m row) (re m row) ltac:(left; exact Z1)) as (Lp & C & S). unfold phase. rewrite C, S.
    set (l := sqrt _) in *. assert (Sq : l * l = re m row * re m row + im m row * im m row) by (apply sqrt_sqrt; nra). split.
    + field. lra.
    + apply Rle_trans with (k * l); [nra|]. right. transitivity (k * ((re m row * re m row + im m row * im m row) / l)); [rewrite <- Sq; field; lra | field; lra].
Qed.
Theorem normal_form_gauge : forall only4d e w R, normal_form only4d e = Some (w, R) ->
  im (w1 w) 0%nat = 0 /\ 0 <= re (w1 w) 0%nat /\ im (w2 w) 2%nat = 0 /\ 0 <= re (w2 w) 2%nat /\ im (w3 w) 4%nat = 0 /\ 0 <= re (w3 w) 4%nat.
Proof.
  intros only4d e w R H. destruct (normal_form_inv _ _ _ _ H) as (a & b & c & _ & X & Y & Z & _).
  destruct (column_gauge _ _ _ _ X), (column_gauge _ _ _ _ Y), (column_gauge _ _ _ _ Z). tauto.
Qed.

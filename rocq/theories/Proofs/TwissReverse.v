(** Proofs for twiss tables in the reverse frame. *)
From Coq Require Import Reals List Bool String Arith Lra Lia Psatz FunctionalExtensionality.
From Verif.Model Require Import Lattice TwissReverse.
From Verif.Spec Require Import Lattice TwissReverse.
From Verif.Proofs Require Lattice.
Import ListNotations.
Local Open Scope R_scope.
Local Open Scope string_scope.

(** * Signs *)
Lemma negate_twice : forall keys col, negate keys (negate keys col) = col.
Proof. intros; apply functional_extensionality; intro k; unfold negate; destruct (mem k keys); lra. Qed.
Lemma negate_rows_twice : forall v, negate_rows (negate_rows v) = v.
Proof. intro v; apply functional_extensionality; intro r; unfold negate_rows; do 5 (destruct r as [|r]; try lra). Qed.
Lemma reverse_mode_twice : forall m, reverse_mode (reverse_mode m) = m.
Proof. intros [a b]; unfold reverse_mode; cbn; now rewrite !negate_rows_twice. Qed.
Lemma reverse_W_twice : forall w, reverse_W (reverse_W w) = w.
Proof. intros [a b c]; unfold reverse_W; cbn; now rewrite !reverse_mode_twice. Qed.
Lemma conjugate_twice : forall c, conjugate (conjugate c) = c.
Proof.
  intros; apply functional_extensionality; intro k; unfold conjugate. destruct (mem k conjugated); [|reflexivity].
  destruct (c k) as [a b]; cbn; f_equal; lra.
Qed.
Lemma strengths_twice : forall e, reverse_strengths (reverse_strengths e) = e.
Proof. intros [n a]; unfold reverse_strengths; cbn; now rewrite negate_twice. Qed.
Lemma mem_In : forall k l, mem k l = true <-> In k l.
Proof.
  intros; unfold mem; rewrite existsb_exists; split.
  - intros (y & H & E); apply String.eqb_eq in E; now subst.
  - intro; exists k; split; auto; apply String.eqb_refl.
Qed.

(** * The lattice functions of the reversed W matrix *)
Lemma rev_symp : forall m, symp (re (reverse_mode m)) (im (reverse_mode m)) = - symp (re m) (im m).
Proof. intros; unfold symp, reverse_mode, negate_rows; cbn; ring. Qed.
Lemma rev_regular : forall row m, regular_mode row m -> regular_mode row (reverse_mode m).
Proof.
  intros row m [H H']; split; [rewrite rev_symp; lra|].
  unfold reverse_mode, negate_rows; cbn.
  do 5 (destruct row as [|row]; [destruct H'; [left|right]; lra|]). exact H'.
Qed.
Lemma rev_nu : forall m, Rabs (symp (re (reverse_mode m)) (im (reverse_mode m))) = Rabs (symp (re m) (im m)).
Proof. intros; rewrite rev_symp; apply Rabs_Ropp. Qed.
Lemma rev_beta : forall row m r, regular_mode row m -> (r = 0 \/ r = 2)%nat -> beta r (to_basis row (reverse_mode m)) = beta r (to_basis row m).
Proof.
  intros row m r H Hr; rewrite !Lattice.basis_beta, rev_nu by auto using rev_regular. f_equal.
  destruct Hr; subst; unfold beta, reverse_mode, negate_rows; cbn; ring.
Qed.
Lemma rev_gama : forall row m r, regular_mode row m -> (r = 0 \/ r = 2)%nat -> gama r (to_basis row (reverse_mode m)) = gama r (to_basis row m).
Proof.
  intros row m r H Hr; rewrite !Lattice.basis_gama, rev_nu by auto using rev_regular. f_equal.
  destruct Hr; subst; unfold gama, reverse_mode, negate_rows; cbn; ring.
Qed.
Lemma rev_alfa : forall row m r, regular_mode row m -> (r = 0 \/ r = 2)%nat -> alfa r (to_basis row (reverse_mode m)) = - alfa r (to_basis row m).
Proof.
  intros row m r H Hr; rewrite !Lattice.basis_alfa, rev_nu by auto using rev_regular.
  unfold Rdiv; rewrite Ropp_mult_distr_l; f_equal.
  destruct Hr; subst; unfold alfa, reverse_mode, negate_rows; cbn; ring.
Qed.
(** In the basis where zeta is real and positive, the signs of the other rows change relative to zeta. *)
Definition to_zeta (v : nat -> R) : nat -> R := fun r => - negate_rows v r.
Lemma rev_basis : forall m r, regular_mode 4 m ->
  re (to_basis 4 (reverse_mode m)) r = to_zeta (re (to_basis 4 m)) r /\ im (to_basis 4 (reverse_mode m)) r = to_zeta (im (to_basis 4 m)) r.
Proof.
  intros m r H. pose proof (rev_regular 4 m H) as H'.
  assert (L : Lattice.len 4 (reverse_mode m) = Lattice.len 4 m).
  { unfold Lattice.len, reverse_mode, negate_rows; cbn; f_equal; ring. }
  assert (N : Lattice.nu_of (reverse_mode m) = Lattice.nu_of m) by (unfold Lattice.nu_of; now rewrite rev_nu).
  unfold to_zeta. split.
  - rewrite Lattice.basis_re, L, N by assumption.
    rewrite (functional_extensionality (re (to_basis 4 m)) _ (fun q => Lattice.basis_re 4 m q H)).
    unfold reverse_mode, negate_rows; cbn [re im].
    do 5 (destruct r as [|r]; [unfold Rdiv; ring|]); unfold Rdiv; ring.
  - rewrite Lattice.basis_im, L, N by assumption.
    rewrite (functional_extensionality (im (to_basis 4 m)) _ (fun q => Lattice.basis_im 4 m q H)).
    unfold reverse_mode, negate_rows; cbn [re im].
    do 5 (destruct r as [|r]; [unfold Rdiv; ring|]); unfold Rdiv; ring.
Qed.
Lemma opp_div : forall a b, - a / - b = a / b.
Proof. intros; unfold Rdiv; rewrite Rinv_opp; ring. Qed.
Lemma div_opp : forall a b, a / - b = - (a / b).
Proof. intros; unfold Rdiv; rewrite Rinv_opp; ring. Qed.
Lemma opp_div_l : forall a b, - a / b = - (a / b).
Proof. intros; unfold Rdiv; ring. Qed.
Lemma rev_disp : forall m r, regular_mode 4 m -> (r < 4)%nat ->
  disp_pzeta r (to_basis 4 (reverse_mode m)) = negate_rows (fun r => disp_pzeta r (to_basis 4 m)) r /\
  disp_zeta r (to_basis 4 (reverse_mode m)) = - negate_rows (fun r => disp_zeta r (to_basis 4 m)) r.
Proof.
  intros m r H Hr. unfold disp_pzeta, disp_zeta.
  rewrite (functional_extensionality (re (to_basis 4 (reverse_mode m))) _ (fun q => proj1 (rev_basis m q H))).
  rewrite (functional_extensionality (im (to_basis 4 (reverse_mode m))) _ (fun q => proj2 (rev_basis m q H))).
  generalize (re (to_basis 4 m)) (im (to_basis 4 m)); intros a b. unfold to_zeta, negate_rows.
  assert (Q : forall u v, u / - - v = u / v) by (intros; now rewrite Ropp_involutive).
  assert (forall u v w, u * - - v / - - w = u * v / w) by (intros; now rewrite !Ropp_involutive).
  assert (A : forall u v w z, (- u - - v * - w / - z) = - (u - v * w / z)) by (intros; unfold Rdiv; rewrite Rinv_opp; ring).
  assert (A' : forall u v w z, (- u - - v * w / z) = - (u - v * w / z)) by (intros; unfold Rdiv; ring).
  assert (A2 : forall u v w z, (u - v * - w / - z) = (u - v * w / z)) by (intros; unfold Rdiv; rewrite Rinv_opp; ring).
  destruct r as [|[|[|[|r]]]]; [..|lia]; rewrite ?Ropp_involutive, ?A, ?A', ?A2, ?opp_div, ?div_opp, ?opp_div_l, ?Ropp_involutive; split; reflexivity.
Qed.
Definition flip (l : lattice) : lattice := mkLattice
  (betx l) (- alfx l) (gamx l) (bety l) (- alfy l) (gamy l) (bety1 l) (- alfy1 l) (gamy1 l) (betx2 l) (- alfx2 l) (gamx2 l)
  (- dx l) (dpx l) (dy l) (- dpy l) (dx_zeta l) (- dpx_zeta l) (- dy_zeta l) (dpy_zeta l).
Lemma lattice_reverse : forall w, regular w -> lattice_functions (reverse_W w) = flip (lattice_functions w).
Proof.
  intros w (H1 & H2 & H3). unfold lattice_functions, flip, to_courant_snyder, reverse_W.
  cbn [w1 w2 w3 betx alfx gamx bety alfy gamy bety1 alfy1 gamy1 betx2 alfx2 gamx2 dx dpx dy dpy dx_zeta dpx_zeta dy_zeta dpy_zeta].
  rewrite !rev_beta, !rev_alfa, !rev_gama by auto.
  rewrite (proj1 (rev_disp _ 0 H3 ltac:(lia))), (proj1 (rev_disp _ 1 H3 ltac:(lia))), (proj1 (rev_disp _ 2 H3 ltac:(lia))), (proj1 (rev_disp _ 3 H3 ltac:(lia))).
  rewrite (proj2 (rev_disp _ 0 H3 ltac:(lia))), (proj2 (rev_disp _ 1 H3 ltac:(lia))), (proj2 (rev_disp _ 2 H3 ltac:(lia))), (proj2 (rev_disp _ 3 H3 ltac:(lia))).
  unfold negate_rows; rewrite ?Ropp_involutive; reflexivity.
Qed.

(** * Shape of the reversed table *)
Definition image (L : R) (first : string -> R) (four : bool) (o : orow) : orow :=
  on_col (fun col => zero_muzeta four (from_first first col)) (reverse_row (on_col (set_s L) o)).
Definition length_of (t : table) : R :=
  match t_length t with Some l => l | None => max_s (reverse_ops (t_markers t) (t_ops t)) end.
Definition last_col (t : table) (d : orow) : string -> R := negate negated (set_s (length_of t) (o_col (last (t_ops t) d))).
Lemma rev_ops_false : forall l, reverse_ops false l = rev l.
Proof. intros [|d l]; reflexivity. Qed.
Lemma rev_last : forall (l : list orow) d, l <> [] -> exists r, rev l = last l d :: r.
Proof.
  intros l d H. destruct (exists_last H) as (l' & a & ->). rewrite rev_app_distr, last_last. cbn. eauto.
Qed.
Lemma reverse_shape : forall t t', t_markers t = false -> reverse t = Some t' ->
  t_ops t <> [] /\
  t_els t' = map reverse_strengths (reverse_els (t_els t)) /\
  (forall d, t_ops t' = map (image (length_of t) (last_col t d) (t_4d t)) (rev (t_ops t))) /\
  t_entry t' = t_entry t /\ t_markers t' = t_markers t /\ t_length t' = t_length t /\ t_4d t' = t_4d t /\
  t_reverse t' = negb (t_reverse t) /\ t_co t' = negate ["x"; "py"; "zeta"] (t_co t).
Proof.
  intros t t' M H. unfold reverse in H. destruct (rev (t_els t)) as [|e r]; [discriminate|].
  destruct (t_ops t) as [|o l] eqn:O; [discriminate|].
  destruct (t_entry t && String.eqb (e_name e) "_end_point")%bool; [|discriminate].
  rewrite M, rev_ops_false in H. set (q := rev (o :: l)) in *.
  assert (E : forall d, exists r', q = last (o :: l) d :: r') by (intro; apply rev_last; discriminate).
  injection H as <-. split; [discriminate|].
  cbn [t_els t_ops t_entry t_markers t_length t_4d t_reverse t_co]. repeat split; auto.
  intro d. unfold length_of, last_col. rewrite map_map. unfold length_of. rewrite M, O, rev_ops_false. fold q.
  destruct (E d) as [r' R]. rewrite R. reflexivity.
Qed.

(** * Columns of the image of a row *)
Lemma image_other : forall L f four o k, ~ In k ["s"; "mux"; "muy"; "muzeta"; "dzeta"] ->
  o_col (image L f four o) k = negate negated (o_col o) k.
Proof.
  intros L f four o k H. unfold image, on_col, reverse_row, zero_muzeta, from_first, negate, set_s; cbn [o_col o_cpx o_W].
  assert (A : forall q, In q ["s"; "mux"; "muy"; "muzeta"; "dzeta"] -> String.eqb k q = false).
  { intros q Hq. apply String.eqb_neq. intro E; subst; contradiction. }
  rewrite (A "muzeta") by (cbn; tauto). rewrite andb_false_r.
  assert (M : mem k cyclical = false).
  { destruct (mem k cyclical) eqn:M; [|reflexivity]. apply mem_In in M. exfalso; apply H. cbn in M |- *. tauto. }
  rewrite M, (A "s") by (cbn; tauto). reflexivity.
Qed.
Lemma image_s : forall L f four o, o_col (image L f four o) "s" = L - o_col o "s".
Proof. intros L f [] o; reflexivity. Qed.
Lemma image_mux : forall L f four o, o_col (image L f four o) "mux" = f "mux" - o_col o "mux".
Proof. intros L f [] o; reflexivity. Qed.
Lemma image_muy : forall L f four o, o_col (image L f four o) "muy" = f "muy" - o_col o "muy".
Proof. intros L f [] o; reflexivity. Qed.
Lemma image_muzeta : forall L f four o, o_col (image L f four o) "muzeta" = if four then 0 else f "muzeta" - o_col o "muzeta".
Proof. intros L f [] o; reflexivity. Qed.
Lemma image_dzeta : forall L f four o, o_col (image L f four o) "dzeta" = f "dzeta" + o_col o "dzeta".
Proof. intros L f [] o; cbn; ring. Qed.
Lemma image_cpx : forall L f four o, o_cpx (image L f four o) = conjugate (o_cpx o).
Proof. reflexivity. Qed.
Lemma image_W : forall L f four o, o_W (image L f four o) = reverse_W (o_W o).
Proof. reflexivity. Qed.

(** * Reversing twice *)
Lemma max_ge : forall (l : list orow) a, a <= fold_left (fun m o => Rmax m (o_col o "s")) l a /\
  forall o, In o l -> o_col o "s" <= fold_left (fun m o => Rmax m (o_col o "s")) l a.
Proof.
  induction l as [|d l IH]; intro a; cbn [fold_left]; [split; [lra|intros o []]|].
  destruct (IH (Rmax a (o_col d "s"))) as [H1 H2]. pose proof (Rmax_l a (o_col d "s")). pose proof (Rmax_r a (o_col d "s")).
  split; [lra|]. intros o [->|H3]; [lra|auto].
Qed.
Lemma max_le : forall (l : list orow) a M, a <= M -> (forall o, In o l -> o_col o "s" <= M) ->
  fold_left (fun m o => Rmax m (o_col o "s")) l a <= M.
Proof.
  induction l as [|d l IH]; intros a M Ha H; cbn [fold_left]; [auto|].
  apply IH; [apply Rmax_lub; [auto|apply H; now left]|intros; apply H; now right].
Qed.
Lemma max_s_is : forall l M, (exists o, In o l /\ o_col o "s" = M) -> (forall o, In o l -> o_col o "s" <= M) -> max_s l = M.
Proof.
  intros [|d l] M (o & Ho & E) H; [destruct Ho|]. unfold max_s.
  destruct (max_ge l (o_col d "s")) as [G1 G2].
  pose proof (max_le l (o_col d "s") M (H d (or_introl eq_refl)) (fun o Ho => H o (or_intror Ho))).
  destruct Ho as [->|Ho]; [lra|]. pose proof (G2 o Ho). lra.
Qed.
Lemma reverse_els_snoc : forall l e, reverse_els (l ++ [e]) = (rev l ++ [e])%list.
Proof.
  intros l e. unfold reverse_els. rewrite removelast_last. f_equal.
  destruct (l ++ [e])%list as [|d r] eqn:E; [destruct l; discriminate|]. rewrite <- E. now rewrite last_last.
Qed.
Lemma reverse_some : forall t, complete t -> exists t', reverse t = Some t'.
Proof.
  intros t (E & (els & e & H & N) & L). unfold reverse. rewrite H, rev_unit, E, N, String.eqb_refl.
  destruct (t_ops t); [rewrite H, app_length in L; cbn in L; lia|]. eexists; reflexivity.
Qed.
Lemma reverse_complete : forall t t', t_markers t = false -> complete t -> reverse t = Some t' -> complete t'.
Proof.
  intros t t' M (E & (els & e & H & N) & L) R.
  destruct (reverse_shape t t' M R) as (Ne & S1 & S2 & S3 & _).
  split; [congruence|]. rewrite S1, H, reverse_els_snoc, map_app. split.
  - exists (map reverse_strengths (rev els)), (reverse_strengths e). split; [reflexivity|exact N].
  - destruct (t_ops t) as [|d l] eqn:O; [contradiction|]. rewrite (S2 d), !app_length, !map_length, !rev_length, L, H, app_length. reflexivity.
Qed.
Lemma table_eq : forall t t', t_els t = t_els t' -> t_ops t = t_ops t' -> t_entry t = t_entry t' -> t_markers t = t_markers t' ->
  t_length t = t_length t' -> t_4d t = t_4d t' -> t_reverse t = t_reverse t' -> t_co t = t_co t' -> t = t'.
Proof. intros [] []; cbn; intros; subst; reflexivity. Qed.
Lemma orow_eq : forall o o', o_col o = o_col o' -> o_cpx o = o_cpx o' -> o_W o = o_W o' -> o = o'.
Proof. intros [] []; cbn; intros; subst; reflexivity. Qed.
Lemma ns_mux : forall L c, negate negated (set_s L c) "mux" = c "mux".
Proof. reflexivity. Qed.
Lemma ns_muy : forall L c, negate negated (set_s L c) "muy" = c "muy".
Proof. reflexivity. Qed.
Lemma ns_muzeta : forall L c, negate negated (set_s L c) "muzeta" = c "muzeta".
Proof. reflexivity. Qed.
Lemma ns_dzeta : forall L c, negate negated (set_s L c) "dzeta" = - c "dzeta".
Proof. reflexivity. Qed.
Theorem twice : forall t t', complete t -> t_markers t = false -> from_start t -> four_d t -> reverse t = Some t' -> reverse t' = Some t.
Proof.
  intros t t' C M F Z R. pose proof (reverse_complete t t' M C R) as C'.
  destruct (reverse_some t' C') as [t'' R']. rewrite R'. f_equal.
  destruct (reverse_shape t t' M R) as (Ne & E1 & O1 & A1 & B1 & L1 & D1 & V1 & P1).
  assert (M' : t_markers t' = false) by congruence.
  destruct (reverse_shape t' t'' M' R') as (Ne' & E2 & O2 & A2 & B2 & L2 & D2 & V2 & P2).
  apply table_eq; try congruence.
  - destruct C as (_ & (els & e & H & _) & _). rewrite E2, E1, H, reverse_els_snoc, map_app. cbn [map].
    rewrite reverse_els_snoc, map_app, <- !map_rev, map_map, rev_involutive. cbn [map]. rewrite strengths_twice. f_equal.
    rewrite <- (map_id els) at 2. apply map_ext; intro; apply strengths_twice.
  - destruct (t_ops t) as [|d l] eqn:O; [contradiction|].
    rewrite (O2 (image (length_of t) (last_col t d) (t_4d t) d)), (O1 d), <- map_rev, rev_involutive, map_map.
    rewrite <- (map_id (d :: l)) at 2. apply map_ext_in. intros o Ho.
    destruct (F d) as (F1 & F2 & F3 & F4 & F5); [now rewrite O|].
    assert (LL : length_of t' = length_of t).
    { unfold length_of at 1. rewrite L1. unfold length_of at 1. destruct (t_length t) as [x|] eqn:TL; [reflexivity|].
      rewrite M', rev_ops_false, (O1 d), <- map_rev, rev_involutive.
      replace (max_s (reverse_ops (t_markers t) (t_ops t))) with (length_of t) by (unfold length_of; now rewrite TL).
      destruct (F5 eq_refl) as [F6 F7]. apply max_s_is.
      - exists (image (length_of t) (last_col t d) (t_4d t) d). split; [left; reflexivity|]. rewrite image_s, F6; lra.
      - intros o' Ho'. apply in_map_iff in Ho'. destruct Ho' as (q & <- & Hq). rewrite image_s.
        pose proof (F7 q). rewrite O in H. specialize (H Hq). lra. }
    assert (LC : forall k, last_col t' (image (length_of t) (last_col t d) (t_4d t) d) k =
                 negate negated (set_s (length_of t) (o_col (image (length_of t) (last_col t d) (t_4d t) d))) k).
    { intro k. unfold last_col at 1. rewrite LL, (O1 d). cbn [rev]. rewrite map_app. cbn [map]. now rewrite last_last. }
    rewrite LL, D1. apply orow_eq.
    + apply functional_extensionality; intro k.
      destruct (in_dec string_dec k ["s"; "mux"; "muy"; "muzeta"; "dzeta"]) as [I|I].
      * cbn [In] in I. destruct I as [<-|[<-|[<-|[<-|[<-|[]]]]]].
        -- rewrite !image_s; lra.
        -- rewrite !image_mux, LC. rewrite ns_mux.
           rewrite image_mux, F1; lra.
        -- rewrite !image_muy, LC. rewrite ns_muy.
           rewrite image_muy, F2; lra.
        -- rewrite !image_muzeta, LC. destruct (t_4d t) eqn:T4; [symmetry; apply Z; [assumption|now rewrite O]|].
           rewrite ns_muzeta.
           rewrite image_muzeta, F3; lra.
        -- rewrite !image_dzeta, LC. rewrite ns_dzeta.
           rewrite image_dzeta, F4; lra.
      * rewrite !image_other by assumption. unfold negate at 1. rewrite image_other by assumption. unfold negate. destruct (mem k negated); lra.
    + now rewrite !image_cpx, conjugate_twice.
    + now rewrite !image_W, reverse_W_twice.
  - rewrite V2, V1. apply negb_involutive.
  - rewrite P2, P1. apply negate_twice.
Qed.

(** * Rows *)
Lemma negated_minus : forall k, minus k -> In k negated /\ ~ In k ["s"; "mux"; "muy"; "muzeta"; "dzeta"].
Proof.
  intros k H. unfold minus in H. cbn [In] in H.
  repeat (destruct H as [<-|H]; [split; [apply mem_In; reflexivity|cbn; intuition discriminate]|]). destruct H.
Qed.
Lemma negated_plus : forall k, plus k -> mem k negated = false /\ ~ In k ["s"; "mux"; "muy"; "muzeta"; "dzeta"].
Proof.
  intros k H. unfold plus in H. cbn [In] in H.
  repeat (destruct H as [<-|H]; [split; [reflexivity|cbn; intuition discriminate]|]). destruct H.
Qed.
Lemma rows_sign : forall v r, negate_rows v r = (if existsb (Nat.eqb r) [0; 3; 4]%nat then -1 else 1) * v r.
Proof. intros v r. unfold negate_rows. do 5 (destruct r as [|r]; [cbn [existsb Nat.eqb orb]; ring|]). cbn [existsb Nat.eqb orb]; ring. Qed.
Lemma image_mirrored : forall L f four o, mirrored o (image L f four o).
Proof.
  intros. split; [|split].
  - intros k H. destruct (negated_minus k H) as [H1 H2]. rewrite image_other by assumption. unfold negate.
    apply mem_In in H1. now rewrite H1.
  - intros k H. destruct (negated_plus k H) as [H1 H2]. rewrite image_other by assumption. unfold negate. now rewrite H1.
  - rewrite image_W. unfold reverse_W, reverse_mode; cbn [w1 w2 w3 re im]. repeat split; intro; apply rows_sign.
Qed.
Lemma nth_rev_map : forall (f : orow -> orow) l i o, nth_error l i = Some o -> nth_error (map f (rev l)) (List.length l - 1 - i) = Some (f o).
Proof.
  intros f l i o H. apply map_nth_error. assert (i < List.length l)%nat by (apply nth_error_Some; congruence).
  apply nth_error_nth with (d := o) in H. rewrite (nth_error_nth' _ o) by (rewrite rev_length; lia).
  rewrite rev_nth by lia. f_equal. replace (List.length l - S (List.length l - 1 - i))%nat with i by lia. exact H.
Qed.
(** The row of an element holds the state at its entry, which is its exit in the other frame. *)
Theorem rows : forall t t' i e o, complete t -> t_markers t = false -> reverse t = Some t' ->
  nth_error (removelast (t_els t)) i = Some e -> nth_error (t_ops t) (S i) = Some o ->
  exists e' o', nth_error (t_els t') (List.length (t_els t) - 2 - i) = Some e' /\ e_name e' = e_name e /\
    nth_error (t_ops t') (List.length (t_els t) - 2 - i) = Some o' /\ mirrored o o'.
Proof.
  intros t t' i e o (En & (els & e0 & H & N) & L) M R He Ho.
  destruct (reverse_shape t t' M R) as (Ne & E1 & O1 & _). rewrite H, removelast_last in He.
  assert (Hi : (i < List.length els)%nat) by (apply nth_error_Some; congruence).
  exists (reverse_strengths e), (image (length_of t) (last_col t o) (t_4d t) o).
  split; [|split; [reflexivity|split; [|apply image_mirrored]]].
  - rewrite E1, H, reverse_els_snoc, app_length. cbn [List.length]. apply map_nth_error.
    replace (List.length els + 1 - 2 - i)%nat with (List.length els - 1 - i)%nat by lia.
    rewrite nth_error_app1 by (rewrite rev_length; lia).
    apply nth_error_nth with (d := e) in He. rewrite (nth_error_nth' _ e) by (rewrite rev_length; lia).
    rewrite rev_nth by lia. f_equal. replace (List.length els - S (List.length els - 1 - i))%nat with i by lia. exact He.
  - rewrite (O1 o). rewrite <- L. replace (List.length (t_ops t) - 2 - i)%nat with (List.length (t_ops t) - 1 - S i)%nat by lia.
    now apply nth_rev_map.
Qed.
(** The end point holds the former first row. *)
Theorem end_row : forall t t' o, complete t -> t_markers t = false -> reverse t = Some t' -> hd_error (t_ops t) = Some o ->
  exists e' o', nth_error (t_els t') (List.length (t_els t) - 1) = Some e' /\ e_name e' = "_end_point" /\
    nth_error (t_ops t') (List.length (t_els t) - 1) = Some o' /\ mirrored o o'.
Proof.
  intros t t' o (En & (els & e0 & H & N) & L) M R Ho.
  destruct (reverse_shape t t' M R) as (Ne & E1 & O1 & _).
  exists (reverse_strengths e0), (image (length_of t) (last_col t o) (t_4d t) o).
  split; [|split; [exact N|split; [|apply image_mirrored]]].
  - rewrite E1, H, reverse_els_snoc, app_length. cbn [List.length]. apply map_nth_error.
    rewrite nth_error_app2 by (rewrite rev_length; lia). rewrite rev_length. replace (_ + 1 - 1 - _)%nat with 0%nat by lia. reflexivity.
  - rewrite (O1 o), <- L. replace (List.length (t_ops t) - 1)%nat with (List.length (t_ops t) - 1 - 0)%nat by lia.
    apply nth_rev_map. destruct (t_ops t); [discriminate|exact Ho].
Qed.
(** s and the phase advances count from the other end. *)
Theorem advances : forall t t' L i o oe, t_markers t = false -> reverse t = Some t' -> t_length t = Some L ->
  nth_error (t_ops t) i = Some o -> nth_error (t_ops t) (List.length (t_ops t) - 1) = Some oe ->
  exists o', nth_error (t_ops t') (List.length (t_ops t) - 1 - i) = Some o' /\
    o_col o' "s" = L - o_col o "s" /\ o_col o' "mux" = o_col oe "mux" - o_col o "mux" /\ o_col o' "muy" = o_col oe "muy" - o_col o "muy" /\
    (t_4d t = false -> o_col o' "muzeta" = o_col oe "muzeta" - o_col o "muzeta") /\ (t_4d t = true -> o_col o' "muzeta" = 0).
Proof.
  intros t t' L i o oe M R TL Ho Hoe. destruct (reverse_shape t t' M R) as (Ne & E1 & O1 & _).
  exists (image (length_of t) (last_col t o) (t_4d t) o). split; [rewrite (O1 o); now apply nth_rev_map|].
  assert (Last : last (t_ops t) o = oe).
  { apply nth_error_nth with (d := o) in Hoe. rewrite <- Hoe. destruct (exists_last Ne) as (l & a & ->). rewrite last_last, app_length. cbn [List.length].
    replace (List.length l + 1 - 1)%nat with (List.length l) by lia. now rewrite app_nth2, Nat.sub_diag by lia. }
  assert (LO : length_of t = L) by (unfold length_of; now rewrite TL).
  rewrite image_s, image_mux, image_muy, image_muzeta, LO. unfold last_col. rewrite ns_mux, ns_muy, ns_muzeta, Last.
  repeat split; auto; intros ->; reflexivity.
Qed.

(** The longitudinal dispersion keeps its sign: it is negated twice. *)
Theorem dzeta_row : forall t t' i o oe, t_markers t = false -> reverse t = Some t' ->
  nth_error (t_ops t) i = Some o -> nth_error (t_ops t) (List.length (t_ops t) - 1) = Some oe ->
  exists o', nth_error (t_ops t') (List.length (t_ops t) - 1 - i) = Some o' /\ o_col o' "dzeta" = o_col o "dzeta" - o_col oe "dzeta".
Proof.
  intros t t' i o oe M R Ho Hoe. destruct (reverse_shape t t' M R) as (Ne & E1 & O1 & _).
  exists (image (length_of t) (last_col t o) (t_4d t) o). split; [rewrite (O1 o); now apply nth_rev_map|].
  assert (Last : last (t_ops t) o = oe).
  { apply nth_error_nth with (d := o) in Hoe. rewrite <- Hoe. destruct (exists_last Ne) as (l & a & ->). rewrite last_last, app_length. cbn [List.length].
    replace (List.length l + 1 - 1)%nat with (List.length l) by lia. now rewrite app_nth2, Nat.sub_diag by lia. }
  rewrite image_dzeta. unfold last_col. rewrite ns_dzeta, Last. ring.
Qed.

(** * Columns and W *)
Theorem consistent : forall t t', t_markers t = false -> reverse t = Some t' -> (forall o, In o (t_ops t) -> regular (o_W o) /\ columns_of_W o) ->
  forall o', In o' (t_ops t') -> columns_of_W o'.
Proof.
  intros t t' M R H o' Ho'. destruct (reverse_shape t t' M R) as (Ne & E1 & O1 & _).
  destruct (t_ops t) as [|d l] eqn:O; [contradiction|]. rewrite (O1 d) in Ho'. apply in_map_iff in Ho'. destruct Ho' as (o & <- & Ho).
  apply in_rev in Ho. destruct (H o Ho) as [G C]. unfold columns_of_W in *.
  rewrite image_W, (lattice_reverse (o_W o) G). revert C. generalize (lattice_functions (o_W o)). intros q C.
  repeat match goal with |- context [o_col (image ?a ?b ?c ?d) ?k] => rewrite (image_other a b c d k) by (cbn; intuition discriminate) end.
  unfold betx_edw_teng, alfx_edw_teng, bety_edw_teng, alfy_edw_teng in *.
  assert (GS : g_squared (flip q) = g_squared q) by (unfold g_squared, flip; cbn [betx gamx alfx]; do 2 f_equal; ring).
  rewrite GS. clear GS.
  unfold flip; cbn [betx alfx gamx bety alfy gamy bety1 alfy1 gamy1 betx2 alfx2 gamx2 dx dpx dy dpy dx_zeta dpx_zeta dy_zeta dpy_zeta].
  unfold Rdiv in *. rewrite <- !Ropp_mult_distr_l.
  unfold negate. cbv [mem existsb negated String.eqb Ascii.eqb Bool.eqb orb].
  intuition lra.
Qed.

(** * Strengths *)
Theorem kicks : forall e x y, kick (reverse_strengths e) (- x) y = (- fst (kick e x y), snd (kick e x y)).
Proof.
  intros e x y. unfold kick, reverse_strengths, keys; cbn [nth fst snd e_att].
  unfold negate. cbv [mem existsb sign_flip String.eqb Ascii.eqb Bool.eqb orb].
  unfold term; cbn [power fst snd]. unfold Rdiv. f_equal; ring.
Qed.

(** * Initial conditions *)
Theorem inits : forall t t' i e e' o, complete t -> t_markers t = false -> reverse t = Some t' ->
  nth_error (t_ops t) i = Some o ->
  exists o', nth_error (t_ops t') (List.length (t_ops t) - 1 - i) = Some o' /\
    same_init (get_init t' e' o') (reverse_init (get_init t e o)).
Proof.
  intros t t' i e e' o C M R Ho. destruct (reverse_shape t t' M R) as (Ne & E1 & O1 & A1 & B1 & L1 & D1 & V1 & P1).
  exists (image (length_of t) (last_col t o) (t_4d t) o). split; [rewrite (O1 o); now apply nth_rev_map|].
  assert (K : forall k, ~ In k ["s"; "mux"; "muy"; "muzeta"; "dzeta"] ->
    o_col (image (length_of t) (last_col t o) (t_4d t) o) k = negate negated (o_col o) k) by (intros; now apply image_other).
  split; [|split; [|split]].
  - intros k H. cbn [In] in H. cbn [get_init reverse_init i_part].
    repeat (destruct H as [<-|H]; [unfold negate; cbv [mem existsb taken String.eqb Ascii.eqb Bool.eqb orb];
      rewrite K by (cbn; intuition discriminate); reflexivity|]). destruct H.
  - intros k H. cbn [In] in H. cbn [get_init reverse_init i_chrom].
    repeat (destruct H as [<-|H]; [rewrite K by (cbn; intuition discriminate); reflexivity|]). destruct H.
  - reflexivity.
  - cbn. now rewrite V1.
Qed.
Theorem orbit_reversed : forall t t', t_markers t = false -> reverse t = Some t' ->
  t_reverse t' = negb (t_reverse t) /\ t_co t' "x" = - t_co t "x" /\ t_co t' "py" = - t_co t "py" /\ t_co t' "zeta" = - t_co t "zeta" /\
  (forall k, ~ In k ["x"; "py"; "zeta"] -> t_co t' k = t_co t k).
Proof.
  intros t t' M R. destruct (reverse_shape t t' M R) as (Ne & E1 & O1 & A1 & B1 & L1 & D1 & V1 & P1). rewrite V1, P1.
  repeat split. intros k H. unfold negate. destruct (mem k _) eqn:K; [|reflexivity]. apply mem_In in K. contradiction.
Qed.
Theorem coupling : forall t t' i o k, t_markers t = false -> reverse t = Some t' -> nth_error (t_ops t) i = Some o ->
  In k ["f1001"; "f1010"; "f0110"; "f0101"] ->
  exists o', nth_error (t_ops t') (List.length (t_ops t) - 1 - i) = Some o' /\ o_cpx o' k = (fst (o_cpx o k), - snd (o_cpx o k)).
Proof.
  intros t t' i o k M R Ho K. destruct (reverse_shape t t' M R) as (Ne & E1 & O1 & _).
  exists (image (length_of t) (last_col t o) (t_4d t) o). split; [rewrite (O1 o); now apply nth_rev_map|].
  rewrite image_cpx. unfold conjugate. cbn [In] in K. repeat (destruct K as [<-|K]; [reflexivity|]). destruct K.
Qed.
Theorem init_twice : forall i, (forall k, i_part (reverse_init (reverse_init i)) k = i_part i k) /\
  (forall k, i_chrom (reverse_init (reverse_init i)) k = i_chrom i k) /\ i_W (reverse_init (reverse_init i)) = i_W i /\
  i_name (reverse_init (reverse_init i)) = i_name i /\ i_reverse (reverse_init (reverse_init i)) = i_reverse i /\
  forall k, i_adv (reverse_init i) k = 0.
Proof.
  intro i. unfold reverse_init. cbn [i_part i_chrom i_W i_name i_reverse i_adv].
  rewrite !negate_twice, reverse_W_twice, negb_involutive. repeat split.
Qed.
Theorem kinetic : forall t e o,
  i_part (get_init t e o) "px" - i_part (get_init t e o) "ax" = o_col o "kin_px" /\
  i_part (get_init t e o) "py" - i_part (get_init t e o) "ay" = o_col o "kin_py".
Proof.
  intros. cbn. split; ring.
Qed.

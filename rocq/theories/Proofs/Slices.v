(** Slices of an element and of a line. *)
From Coq Require Import ZArith QArith Qabs Qfield List Bool String Ascii Arith Lia Lqa.
From Verif.Model Require Import Line Slicing.
From Verif.Spec Require Import Line Slicing.
From Verif.Proofs Require Import LineBase Slicing.
Import ListNotations.
Local Open Scope Q_scope.

(** * How the environment changes *)
Definition clean (m : string) : Prop := forall b, (m <> b ++ "_entry" /\ m <> b ++ "_exit")%string.
Definition evolves (v v' : env) : Prop :=
  grows v v' /\ (cache_ok v -> cache_ok v') /\ forall m e, lookup v' m = Some e -> lookup v m = Some e \/ clean m.
Lemma evolves_refl v : evolves v v.
Proof. split; [apply grows_refl|]. split; auto. Qed.
Lemma evolves_trans a b c : evolves a b -> evolves b c -> evolves a c.
Proof.
  intros (G1 & C1 & N1) (G2 & C2 & N2). split; [eapply grows_trans; eassumption|]. split; [auto|].
  intros m e H. destruct (N2 _ _ H) as [H'|H']; [|auto]. apply N1 with (1 := H').
Qed.
Lemma evolves_keeps v v' : evolves v v' -> keeps v v'.
Proof. intros ((K & _) & _). exact K. Qed.
Lemma evolves_edges v v' : evolves v v' -> edge_names_ok v -> edge_names_ok v'.
Proof.
  intros (_ & _ & N) E n e [H|H]; destruct (N _ _ H) as [H'|H']; [eapply E; eauto| |eapply E; eauto|];
    exfalso; destruct (H' n); congruence.
Qed.

Lemma cache_set v n e : lookup v n = None \/ lookup v n = Some e -> cache_ok v -> cache_ok (set_elem v n e).
Proof.
  intros H C l m Hin. destruct (C l m Hin) as (l' & t & H1 & H2). exists l', t. split; [|exact H2].
  apply (grows_set v n e H), H1.
Qed.
Lemma evolves_set v n e : lookup v n = None -> clean n -> evolves v (set_elem v n e).
Proof.
  intros H Cl. split; [apply grows_set; auto|]. split; [apply cache_set; auto|]. intros m x. rewrite lookup_set.
  destruct (String.eqb_spec m n); [subst m; auto|auto].
Qed.

Lemma clean_dec a n : clean (a ++ dec n).
Proof. intro b. apply not_edge. Qed.

Lemma get_drift_evolves v l v' n : cache_ok v -> get_drift v l = (v', n) ->
  evolves v v' /\ exists l' t, lookup v' n = Some (EOwn CDrift l' t) /\ l' == l.
Proof.
  intros C H. destruct (get_drift_spec v l v' n C H) as (G & C' & D & N). split; [|exact D]. split; [exact G|]. split; [auto|].
  intros m e Hm. destruct (N m e Hm) as [H1|(k & ->)]; [auto|right]. apply clean_dec.
Qed.

Lemma real_keeps v v' p n pc : keeps v v' -> real v p n pc -> real v' p n pc.
Proof. intros K. destruct pc; cbn; [apply K|]. intros (l' & t & H1 & H2). exists l', t. auto. Qed.
Lemma real_list_keeps v v' p l pcs : keeps v v' -> Forall2 (real v p) l pcs -> Forall2 (real v' p) l pcs.
Proof. intros K H. induction H; constructor; [eapply real_keeps; eassumption|assumption]. Qed.

(** * The loop over the weights *)
Section Loop.
Variables (name : string) (element : elem) (len w0 : Q) (p : string) (ids : bool).

Definition advances (st st' : sst) (pcs : list piece) : Prop :=
  evolves (ss_env st) (ss_env st') /\ exists body, ss_names st' = ss_names st ++ body /\ Forall2 (real (ss_env st') p) body pcs.

Lemma advances_trans a b c x y : advances a b x -> advances b c y -> advances a c (x ++ y).
Proof.
  intros (E1 & b1 & N1 & F1) (E2 & b2 & N2 & F2). split; [eapply evolves_trans; eassumption|]. exists (b1 ++ b2). split.
  - rewrite N2, N1, app_assoc. reflexivity.
  - apply Forall2_app; [|exact F2]. eapply real_list_keeps; [apply evolves_keeps, E2|exact F1].
Qed.

Lemma mk_thin_inj (a : string) i j : (a ++ name ++ ".." ++ dec i = a ++ name ++ ".." ++ dec j)%string -> i = j.
Proof. intro H. apply append_inj, append_inj, append_inj, dec_inj in H. exact H. Qed.
Lemma mk_clean (a : string) i : clean (a ++ name ++ ".." ++ dec i)%string.
Proof. rewrite <- !append_assoc. apply clean_dec. Qed.

Lemma add_slice_advances st n k w off de ee : lookup (ss_env st) n = None -> clean n ->
  advances st (add_slice w0 p st n k w off de ee) [PSlice k (w * w0) (ss_offset st)].
Proof.
  intros N C. split; [apply evolves_set; assumption|]. exists [n]. split; [reflexivity|]. constructor; [|constructor].
  cbn. unfold lookup. cbn. rewrite String.eqb_refl. reflexivity.
Qed.

Lemma drift_advances st l next v n : cache_ok (ss_env st) -> get_drift (ss_env st) l = (v, n) ->
  advances st (mkSst v (ss_drift st) (ss_elem st) next (ss_names st ++ [n])) [PDrift l].
Proof.
  intros C G. destruct (get_drift_evolves _ _ _ _ C G) as (E & l' & t & H1 & H2). split; [exact E|].
  exists [n]. split; [reflexivity|]. constructor; [|constructor]. exists l', t. auto.
Qed.

Lemma thin_step_ok st x : cache_ok (ss_env st) -> (ids = true -> is_drift_elem element = false) ->
  let st' := thin_step name element len w0 p ids st x in
  let pcs := layout (auto_drift name element) (is_drift_elem element || ids) MThin len w0 (ss_offset st) [x] in
  advances st st' pcs /\ ss_offset st' = (if snd x then ss_offset st + len * fst x * w0 else ss_offset st).
Proof.
  intros C ID st' pcs. destruct x as [w [|]]; unfold st', pcs; cbn [thin_step layout fst snd].
  - destruct (auto_drift name element).
    + destruct (get_drift (ss_env st) (len * w * w0)) as [v n] eqn:G. split; [|reflexivity]. apply drift_advances; assumption.
    + split; [|reflexivity]. apply add_slice_advances; [|apply mk_clean]. apply mem_lookup.
      match goal with |- mem _ (?a ++ name ++ ".." ++ dec (fresh_index _ ?mk _))%string = false =>
        apply (fresh_new (en_dict (ss_env st)) mk) end. intros i j. apply mk_thin_inj.
  - destruct ids.
    + rewrite orb_true_r. cbn [app]. split; [|reflexivity]. split; [apply evolves_refl|]. exists []. rewrite app_nil_r. split; constructor.
    + rewrite orb_false_r. destruct (is_drift_elem element).
      * split; [|reflexivity]. split; [apply evolves_refl|]. exists []. cbn. rewrite app_nil_r. split; constructor.
      * split; [|reflexivity]. cbn [app]. apply add_slice_advances; [|apply (mk_clean "")]. apply mem_lookup.
        match goal with |- mem _ (name ++ ".." ++ dec (fresh_index _ ?mk _))%string = false =>
          apply (fresh_new (en_dict (ss_env st)) mk) end. intros i j. apply (mk_thin_inj "").
Qed.

Lemma thick_step_ok st w : cache_ok (ss_env st) ->
  let st' := thick_step name element len w0 p st (w, true) in
  let pcs := layout (auto_drift name element) (is_drift_elem element) MThick len w0 (ss_offset st) [(w, true)] in
  advances st st' pcs /\ ss_offset st' = ss_offset st + len * w * w0.
Proof.
  intros C st' pcs. unfold st', pcs. unfold thick_step. cbn [layout fst]. destruct (auto_drift name element).
  - destruct (get_drift (ss_env st) (len * w * w0)) as [v n] eqn:G. split; [|reflexivity]. apply drift_advances; assumption.
  - split; [|reflexivity]. apply add_slice_advances; [|apply (mk_clean "")]. apply mem_lookup.
    match goal with |- mem _ (name ++ ".." ++ dec (fresh_index _ ?mk _))%string = false =>
      apply (fresh_new (en_dict (ss_env st)) mk) end. intros i j. apply (mk_thin_inj "").
Qed.

Lemma layout_cons auto dr m from x ws : layout auto dr m len w0 from (x :: ws) =
  layout auto dr m len w0 from [x] ++ layout auto dr m len w0 (if snd x then from + len * fst x * w0 else from) ws.
Proof. destruct x as [w [|]]; cbn; [reflexivity|]. destruct dr; reflexivity. Qed.

Lemma thin_loop : (ids = true -> is_drift_elem element = false) -> forall ws st, cache_ok (ss_env st) ->
  advances st (fold_left (thin_step name element len w0 p ids) ws st)
    (layout (auto_drift name element) (is_drift_elem element || ids) MThin len w0 (ss_offset st) ws).
Proof.
  intro ID. induction ws as [|x ws IH]; intros st C; cbn [fold_left].
  - split; [apply evolves_refl|]. exists []. rewrite app_nil_r. split; constructor.
  - destruct (thin_step_ok st x C ID) as [A O]. rewrite layout_cons. eapply advances_trans; [exact A|].
    rewrite <- O. apply IH. destruct A as ((_ & Cc & _) & _). auto.
Qed.

Lemma thick_loop : forall ws st, cache_ok (ss_env st) -> (forall x, In x ws -> snd x = true) ->
  advances st (fold_left (thick_step name element len w0 p) ws st)
    (layout (auto_drift name element) (is_drift_elem element) MThick len w0 (ss_offset st) ws).
Proof.
  induction ws as [|[w b] ws IH]; intros st C T; cbn [fold_left].
  - split; [apply evolves_refl|]. exists []. rewrite app_nil_r. split; constructor.
  - assert (b = true) as -> by (apply (T (w, b)); left; reflexivity).
    destruct (thick_step_ok st w C) as [A O]. rewrite layout_cons. eapply advances_trans; [exact A|].
    cbn [snd fst]. rewrite <- O. apply IH; [|intros; apply T; right; assumption]. destruct A as ((_ & Cc & _) & _). auto.
Qed.
End Loop.

Lemma weave_all_thick d e x : In x (weave MThick d e) -> snd x = true.
Proof.
  revert e. induction d as [|w d IH]; intros e H; [destruct H|]. cbn in H. destruct e as [|y e].
  - destruct H as [<-|[]]. reflexivity.
  - destruct H as [<-|H]; [reflexivity|]. eapply IH; exact H.
Qed.
Lemma layout_thick_mode auto len w0 from ws : (forall x, In x ws -> snd x = true) ->
  layout auto true MThick len w0 from ws = layout auto true MThin len w0 from ws.
Proof.
  revert from. induction ws as [|[w b] ws IH]; intros from T; [reflexivity|].
  assert (b = true) as -> by (apply (T (w, b)); left; reflexivity). cbn. rewrite IH; [reflexivity|]. intros; apply T; right; assumption.
Qed.

(** * make_slices *)
Definition parent_weight (e : elem) : Q := match e with ESlice _ _ w _ => w | _ => 1 end.
Definition slice_parent (t : string) (e : elem) : string := match e with ESlice _ p _ _ => p | _ => t end.
Definition drift_like (e : elem) : bool := is_drift_elem e || match e with ESlice SDrift _ _ _ => true | _ => false end.

Lemma edge_name_new v name what : what = "..entry_map"%string \/ what = "..exit_map"%string ->
  lookup v (edge_name v name what) = None /\ clean (edge_name v name what).
Proof.
  intro W. unfold edge_name. destruct (mem (en_dict v) (name ++ what)) eqn:M.
  - split.
    + apply mem_lookup. match goal with |- mem _ (_ ++ "_" ++ dec (fresh_index _ ?mk _))%string = false =>
        apply (fresh_new (en_dict v) mk) end. intros i j H. apply append_inj, append_inj, dec_inj in H. exact H.
    + rewrite <- !append_assoc. apply clean_dec.
  - split; [apply mem_lookup, M|]. intro b. split; intro H; apply (f_equal last_char) in H;
      destruct W as [-> | ->]; rewrite !last_append in H by discriminate; discriminate.
Qed.

Lemma edge_zero v n b p o : lookup v n = Some (EEdge b p o) -> zero_length v n.
Proof. intro H. unfold zero_length, s_length, resolve. rewrite H. reflexivity. Qed.

Lemma make_slices_ok v name c v' l t e : cache_ok v -> resolve v name = Some (t, e) -> make_slices v name c = Some (v', l) ->
  exists len ws pre body post,
    elem_length v e = Some len /\ iter_weights c len = Some ws /\ l = pre ++ body ++ post /\
    evolves v v' /\ (forall n, In n (pre ++ post) -> zero_length v' n /\ exists b o, lookup v' n = Some (EEdge b t o)) /\
    Forall2 (real v' (slice_parent t e)) body
      (layout (auto_drift name e) (drift_like e) (mode_of c) len (parent_weight e) 0 ws).
Proof.
  intros C R H. unfold make_slices in H. rewrite R in H. destruct (elem_length v e) as [len|] eqn:L; [|discriminate].
  assert (S3 : (match e with ESlice k p w _ => (w, p, match k with SDrift => true | _ => false end) | _ => (1, t, false) end)
    = (parent_weight e, slice_parent t e, match e with ESlice SDrift _ _ _ => true | _ => false end)).
  { destruct e as [| [] | |]; reflexivity. }
  rewrite S3 in H. clear S3. set (ids := match e with ESlice SDrift _ _ _ => true | _ => false end) in *.
  assert (ID : ids = true -> is_drift_elem e = false) by (unfold ids; destruct e as [| [] | |]; cbn; congruence).
  destruct (if has_edges e then _ else _) as [v1 pre] eqn:P.
  assert (A1 : evolves v v1 /\ forall n, In n pre -> exists b o, lookup v1 n = Some (EEdge b t o)).
  { destruct (has_edges e); injection P as <- <-; [|split; [apply evolves_refl|intros n []]].
    destruct (edge_name_new v name "..entry_map" (or_introl eq_refl)) as [N Cl]. split; [apply evolves_set; assumption|].
    intros n [<-|[]]. exists true, 0. rewrite lookup_set, String.eqb_refl. reflexivity. }
  clear P. destruct A1 as [E1 P1].
  destruct (iter_weights c len) as [ws|] eqn:W; [|discriminate].
  set (step := match mode_of c, ids with MThin, _ | _, true => thin_step name e len (parent_weight e) (slice_parent t e) ids
      | MThick, false => thick_step name e len (parent_weight e) (slice_parent t e) end) in H.
  set (st0 := mkSst v1 0 0 0 pre) in H.
  assert (C1 : cache_ok (ss_env st0)) by (cbn; destruct E1 as (_ & X & _); auto).
  assert (T : mode_of c = MThick -> forall x, In x ws -> snd x = true).
  { intros M x Hx. unfold iter_weights in W. destruct (zero_custom c len); [discriminate|]. destruct (element_weights c); [|discriminate].
    injection W as <-. rewrite M in Hx. eapply weave_all_thick; exact Hx. }
  assert (A : advances (slice_parent t e) st0 (fold_left step ws st0)
     (layout (auto_drift name e) (drift_like e) (mode_of c) len (parent_weight e) 0 ws)).
  { assert (D : drift_like e = is_drift_elem e || ids) by reflexivity. rewrite D. unfold step. destruct (mode_of c).
    - apply (thin_loop name e len (parent_weight e) (slice_parent t e) ids ID ws st0 C1).
    - destruct ids.
      + rewrite orb_true_r. rewrite layout_thick_mode by (apply T; reflexivity).
        pose proof (thin_loop name e len (parent_weight e) (slice_parent t e) true ID ws st0 C1) as X. rewrite orb_true_r in X. exact X.
      + rewrite orb_false_r. apply (thick_loop name e len (parent_weight e) (slice_parent t e) ws st0 C1 (T eq_refl)). }
  clear C1. destruct A as (E2 & body & N2 & F2). set (st := fold_left step ws st0) in *. clearbody st.
  cbn [st0 ss_env ss_names] in E2, N2.
  destruct (if has_edges e then _ else _) as [v2 post] eqn:P.
  assert (A3 : evolves (ss_env st) v2 /\ forall n, In n post -> exists b o, lookup v2 n = Some (EEdge b t o)).
  { destruct (has_edges e); injection P as <- <-; [|split; [apply evolves_refl|intros n []]].
    destruct (edge_name_new (ss_env st) name "..exit_map" (or_intror eq_refl)) as [N Cl]. split; [apply evolves_set; assumption|].
    intros n [<-|[]]. exists false, len. rewrite lookup_set, String.eqb_refl. reflexivity. }
  clear P. destruct A3 as [E3 P3]. injection H as <- <-.
  exists len, ws, pre, body, post. split; [reflexivity|]. split; [exact W|]. split; [rewrite N2, app_assoc; reflexivity|].
  split; [eapply evolves_trans; [exact E1|eapply evolves_trans; eassumption]|]. split.
  - assert (X : forall n, In n (pre ++ post) -> exists b o, lookup v2 n = Some (EEdge b t o)).
    { intros n Hn. apply in_app_iff in Hn. destruct Hn as [Hn|Hn]; [|auto]. destruct (P1 n Hn) as (b & o & Hl). exists b, o.
      apply (evolves_keeps _ _ E3), (evolves_keeps _ _ E2), Hl. }
    intros n Hn. destruct (X n Hn) as (b & o & Hl). split; [eapply edge_zero; exact Hl|eauto].
  - eapply real_list_keeps; [apply evolves_keeps, E3|exact F2].
Qed.

Lemma make_slices_defined v name c t e len : resolve v name = Some (t, e) -> elem_length v e = Some len -> usable c len ->
  exists r, make_slices v name c = Some r.
Proof.
  intros R L U. unfold make_slices. rewrite R, L. destruct (weights_defined c len U) as (ws & W).
  destruct (match e with ESlice k p w _ => _ | _ => _ end) as [[w0 sp] ids]. destruct (if has_edges e then _ else _) as [v1 pre]. rewrite W.
  cbn zeta. destruct (if has_edges e then _ else _) as [v2 post]. eauto.
Qed.

(** * Lengths of names *)
Definition lens_ok (v : env) (names : list string) (lens : list Q) : Prop :=
  Forall2 (fun n l => exists l', s_length v n = Some l' /\ l' == l) names lens.
Fixpoint scan (s : Q) (lens : list Q) : list Q :=
  s :: match lens with [] => [] | l :: r => scan (s + l) r end.

Lemma lens_keeps v v' names lens : keeps v v' -> lens_ok v names lens -> lens_ok v' names lens.
Proof. intros K H. induction H as [|n l ns ls (l' & H1 & H2) _ IH]; constructor; [|exact IH]. exists l'. split; [eapply s_length_keeps; eassumption|exact H2]. Qed.
Lemma lens_eq v names a b : Forall2 Qeq a b -> lens_ok v names a -> lens_ok v names b.
Proof.
  intros E H. revert b E. induction H as [|n l ns ls (l' & H1 & H2) _ IH]; intros b E; inversion E; subst; constructor; [|apply IH; assumption].
  exists l'. split; [exact H1|]. rewrite H2. assumption.
Qed.
Lemma lens_line v names lens : lens_ok v names lens -> exists L, line_length v names = Some L /\ L == qsum lens.
Proof.
  induction 1 as [|n l ns ls (l' & H1 & H2) _ (L & H3 & H4)]; cbn; [eexists; split; reflexivity|].
  rewrite H1, H3. eexists. split; [reflexivity|]. rewrite H2, H4. reflexivity.
Qed.
Lemma lens_bounds v names lens : lens_ok v names lens -> forall s s', s == s' ->
  exists bs, bounds v s names = Some bs /\ Forall2 Qeq bs (scan s' lens).
Proof.
  induction 1 as [|n l ns ls (l' & H1 & H2) _ IH]; intros s s' E; cbn [bounds scan].
  - eexists. split; [reflexivity|]. repeat constructor. exact E.
  - rewrite H1. destruct (IH (s + l') (s' + l)) as (bs & -> & F); [rewrite E, H2; reflexivity|]. eexists. split; [reflexivity|]. constructor; assumption.
Qed.
Lemma line_lens v names L : line_length v names = Some L -> exists lens, lens_ok v names lens /\ L == qsum lens.
Proof.
  revert L. induction names as [|n r IH]; intros L H; cbn in H.
  - injection H as <-. exists []. split; [constructor|reflexivity].
  - destruct (s_length v n) as [l|] eqn:E; [|discriminate]. destruct (line_length v r) as [m|]; [|discriminate]. injection H as <-.
    destruct (IH m eq_refl) as (lens & F & Q). exists (l :: lens). split; [constructor; [exists l; split; [exact E|reflexivity]|exact F]|].
    cbn. rewrite Q. reflexivity.
Qed.
Lemma bounds_lens v names : forall s bs, bounds v s names = Some bs -> exists lens, lens_ok v names lens /\ bs = scan s lens.
Proof.
  induction names as [|n r IH]; intros s bs H; cbn in H.
  - injection H as <-. exists []. split; [constructor|reflexivity].
  - destruct (s_length v n) as [l|] eqn:E; [|discriminate]. destruct (bounds v (s + l) r) as [m|] eqn:B; [|discriminate]. injection H as <-.
    destruct (IH _ _ B) as (lens & F & Q). exists (l :: lens). split; [constructor; [exists l; split; [exact E|reflexivity]|exact F]|].
    cbn. rewrite Q. reflexivity.
Qed.

(** * Lengths of pieces *)
Fixpoint layout_lens (dr : bool) (len : Q) (ws : list (Q * bool)) : list Q :=
  match ws with
  | [] => []
  | (w, true) :: r => len * w :: layout_lens dr len r
  | (w, false) :: r => (if dr then [] else [0]) ++ layout_lens dr len r
  end.
Lemma layout_lens_sum dr len ws : qsum (layout_lens dr len ws) == len * qsum (drifts ws).
Proof.
  induction ws as [|[w [|]] ws IH]; cbn [layout_lens qsum].
  - unfold drifts. cbn. ring.
  - rewrite IH. unfold drifts. cbn. ring.
  - rewrite qsum_app, IH. unfold drifts. cbn. destruct dr; cbn; ring.
Qed.
Lemma layout_piece auto dr m len w0 lp from ws : len == lp * w0 -> (auto = true -> w0 == 1) ->
  Forall2 Qeq (map (piece_length lp) (layout auto dr m len w0 from ws)) (layout_lens dr len ws).
Proof.
  intros E A. revert from. induction ws as [|[w [|]] ws IH]; intro from; cbn [layout layout_lens].
  - constructor.
  - cbn [map]. constructor; [|apply IH]. destruct auto; cbn [piece_length].
    + rewrite (A eq_refl). ring.
    + destruct m; [|destruct dr]; cbn [piece_length]; rewrite E; ring.
  - rewrite map_app. apply Forall2_app; [|apply IH]. destruct dr; repeat constructor.
Qed.

Lemma real_lens v p c lp g names pcs : lookup v p = Some (EOwn c lp g) -> Forall2 (real v p) names pcs ->
  lens_ok v names (map (piece_length lp) pcs).
Proof.
  intros P H. induction H as [|n pc ns pcs R _ IH]; cbn; constructor; [|exact IH]. destruct pc as [k w o|l]; cbn in R |- *.
  - unfold s_length, resolve. rewrite R. destruct k; cbn; rewrite ?P; eexists; split; reflexivity.
  - destruct R as (l' & t & R & E). unfold s_length, resolve. rewrite R. cbn. eauto.
Qed.

Lemma slice_parent_own v t e len : lookup v t = Some e -> elem_length v e = Some len ->
  exists c lp g, lookup v (slice_parent t e) = Some (EOwn c lp g) /\ len == lp * parent_weight e.
Proof.
  destruct e as [c l g|k p w o|b p o|p]; cbn; try discriminate.
  - intros H [= <-]. exists c, l, g. split; [exact H|ring].
  - intros _. destruct (lookup v p) as [[c l g| | |]|]; try discriminate. intros [= <-]. exists c, l, g. split; reflexivity.
Qed.

Lemma zeros_lens v l : (forall n, In n l -> zero_length v n) -> lens_ok v l (repeat 0 (List.length l)).
Proof.
  induction l as [|n l IH]; intro H; cbn; constructor; [exists 0; split; [apply H; left; reflexivity|reflexivity]|].
  apply IH. intros; apply H; right; assumption.
Qed.

(** * slice_element *)
Lemma marker_zero v n : lookup v n = Some marker -> zero_length v n.
Proof. intro H. unfold zero_length, s_length, resolve. rewrite H. reflexivity. Qed.
Lemma entry_exit a : (a ++ "_entry" <> a ++ "_exit")%string.
Proof. intro H. apply append_inj in H. discriminate. Qed.
Lemma edge_set v n : edge_names_ok v -> (exists a, n = a ++ "_entry" \/ n = a ++ "_exit")%string ->
  grows v (set_elem v n marker) /\ (cache_ok v -> cache_ok (set_elem v n marker)) /\ edge_names_ok (set_elem v n marker).
Proof.
  intros E (a & A). assert (X : lookup v n = None \/ lookup v n = Some marker).
  { destruct (lookup v n) as [e|] eqn:L; [right|auto]. f_equal. apply (E a). destruct A; subst n; auto. }
  split; [apply grows_set, X|]. split; [apply cache_set, X|].
  intros m e. rewrite !lookup_set. intros [H|H].
  - destruct (String.eqb (m ++ "_entry") n); [congruence|]. eapply E; eauto.
  - destruct (String.eqb (m ++ "_exit") n); [congruence|]. eapply E; eauto.
Qed.

Definition fits (v v' : env) : Prop := grows v v' /\ cache_ok v' /\ edge_names_ok v'.
Lemma fits_keeps v v' : fits v v' -> keeps v v'.
Proof. intros ((K & _) & _). exact K. Qed.

Lemma framed_keeps v v' p chunk pcs : keeps v v' -> framed v p chunk pcs -> framed v' p chunk pcs.
Proof.
  intros K (a & b & c & H1 & H2 & H3). exists a, b, c. split; [exact H1|]. split; [|eapply real_list_keeps; eassumption].
  intros n Hn. unfold zero_length. eapply s_length_keeps; [exact K|apply H2, Hn].
Qed.

Lemma slice_element_ok v name c mk v' l t e : cache_ok v -> edge_names_ok v -> resolve v name = Some (t, e) ->
  slice_element v name c mk = Some (v', l) ->
  fits v v' /\ exists len ws, elem_length v e = Some len /\ iter_weights c len = Some ws /\
    framed v' (slice_parent t e) l (layout (auto_drift name e) (drift_like e) (mode_of c) len (parent_weight e) 0 ws).
Proof.
  intros C E R H. unfold slice_element in H. destruct (lookup v name) as [e0|]; [|discriminate].
  destruct (make_slices v name c) as [[v1 l1]|] eqn:M; [|discriminate].
  destruct (make_slices_ok v name c v1 l1 t e C R M) as (len & ws & pre & body & post & L & W & El & Ev & Z & F).
  assert (E1 : edge_names_ok v1) by (eapply evolves_edges; eassumption).
  assert (C1 : cache_ok v1) by (destruct Ev as (_ & X & _); auto).
  destruct (mk && _).
  - injection H as <- <-.
    destruct (edge_set v1 (name ++ "_entry") E1) as (G2 & C2 & E2); [eauto|].
    destruct (edge_set _ (name ++ "_exit") E2) as (G3 & C3 & E3); [eauto|].
    set (v2 := set_elem v1 _ _) in *. set (v3 := set_elem v2 _ _) in *.
    assert (K : keeps v1 v3) by (intros x y Hx; apply G3, G2, Hx).
    split; [split; [destruct Ev as (G1 & _); eapply grows_trans; [exact G1|eapply grows_trans; eassumption]|auto]|].
    exists len, ws. split; [exact L|]. split; [exact W|]. exists ((name ++ "_entry")%string :: pre), body, (post ++ [(name ++ "_exit")%string]).
    split; [subst l1; cbn; rewrite <- !app_assoc; reflexivity|]. split; [|eapply real_list_keeps; eassumption].
    intros n Hn. cbn in Hn. rewrite app_assoc in Hn. destruct Hn as [<-|Hn].
    + apply marker_zero. unfold v3. rewrite lookup_set. destruct (String.eqb_spec (name ++ "_entry") (name ++ "_exit")) as [X|_]; [destruct (entry_exit _ X)|].
      unfold v2. rewrite lookup_set, String.eqb_refl. reflexivity.
    + apply in_app_iff in Hn. destruct Hn as [Hn|[<-|[]]].
      * destruct (Z n Hn) as (Zn & _). unfold zero_length. eapply s_length_keeps; eassumption.
      * apply marker_zero. unfold v3. rewrite lookup_set, String.eqb_refl. reflexivity.
  - injection H as <- <-. split; [split; [destruct Ev as (G1 & _); exact G1|auto]|].
    exists len, ws. split; [exact L|]. split; [exact W|]. exists pre, body, post. split; [exact El|]. split; [|exact F].
    intros n Hn. apply (Z n Hn).
Qed.

(** * slice_rows *)
(** what happens to one row: nothing, or slices *)
Definition row_sliced (strategies : list strategy) (v v' : env) (row : string * string) (chunk : list string) : Prop :=
  exists e0 t e, lookup v (snd row) = Some e0 /\ resolve v (snd row) = Some (t, e) /\
  ((chunk = [snd row] /\ (skip v e0 e = true \/ scheme_for_element strategies (fst row) e0 e = Some None))
   \/ exists c len ws, skip v e0 e = false /\ scheme_for_element strategies (fst row) e0 e = Some (Some c) /\
        elem_length v e = Some len /\ iter_weights c len = Some ws /\
        framed v' (slice_parent t e) chunk
          (layout (auto_drift (snd row) e) (drift_like e) (mode_of c) len (parent_weight e) 0 ws)).

Lemma row_keeps strategies v v1 v' v'' row chunk : keeps v v1 -> keeps v' v'' -> s_length v (snd row) <> None ->
  row_sliced strategies v1 v' row chunk -> row_sliced strategies v v'' row chunk.
Proof.
  intros K K' S (e0 & t & e & L & R & H).
  unfold s_length in S. destruct (resolve v (snd row)) as [[t' e']|] eqn:R'; [|congruence].
  pose proof (resolve_keeps _ _ _ _ K R') as R2. rewrite R in R2. injection R2 as -> ->.
  assert (L' : exists e1, lookup v (snd row) = Some e1).
  { unfold resolve in R'. destruct (lookup v (snd row)); [eauto|discriminate]. }
  destruct L' as (e1 & L1). pose proof (K _ _ L1) as L2. rewrite L in L2. injection L2 as ->.
  exists e1, t', e'. split; [exact L1|]. split; [exact R'|]. destruct H as [H|(c & len & ws & H1 & H2 & H3 & H4 & H5)]; [left; exact H|right].
  exists c, len, ws. split; [exact H1|]. split; [exact H2|]. split; [|split; [exact H4|eapply framed_keeps; eassumption]].
  unfold skip in H1. apply orb_false_iff in H1. destruct H1 as [H1 _]. apply negb_false_iff in H1. rewrite H1 in S.
  destruct (elem_length v e') as [len'|] eqn:El; [|congruence]. rewrite <- H3. symmetry. eapply elem_length_keeps; [exact K|exact El].
Qed.

Theorem slice_rows_ok strategies mk : forall rows v v' names, cache_ok v -> edge_names_ok v ->
  Forall (fun r => s_length v (snd r) <> None) rows ->
  slice_rows strategies mk v rows = Some (v', names) ->
  fits v v' /\ exists chunks, names = List.concat chunks /\ Forall2 (row_sliced strategies v v') rows chunks.
Proof.
  induction rows as [|[nn n] rows IH]; intros v v' names C E S H; cbn [slice_rows] in H.
  - injection H as <- <-. split; [split; [apply grows_refl|auto]|]. exists []. split; constructor.
  - destruct (lookup v n) as [e0|] eqn:L; [|discriminate]. destruct (resolve v n) as [[t e]|] eqn:R; [|discriminate].
    destruct (if skip v e0 e then _ else _) as [[v1 l]|] eqn:T; [|discriminate].
    destruct (slice_rows strategies mk v1 rows) as [[v2 l']|] eqn:Rest; [|discriminate]. injection H as <- <-.
    assert (A : fits v v1 /\ row_sliced strategies v v1 (nn, n) l).
    { assert (Same : forall P : Prop, Some (v, [n]) = Some (v1, l) -> (fits v v -> l = [n] -> v1 = v -> P) -> P).
      { intros P X Y. injection X as <- <-. apply Y; [split; [apply grows_refl|auto]|reflexivity|reflexivity]. }
      destruct (skip v e0 e) eqn:Sk.
      - apply (Same _ T). intros F -> ->. split; [exact F|]. exists e0, t, e. cbn. split; [exact L|]. split; [exact R|]. left. auto.
      - destruct (scheme_for_element strategies nn e0 e) as [[c|]|] eqn:Sc; [| |discriminate].
        + destruct (slice_element_ok v n c mk v1 l t e C E R T) as (F & len & ws & H1 & H2 & H3). split; [exact F|].
          exists e0, t, e. cbn. split; [exact L|]. split; [exact R|]. right. exists c, len, ws. auto.
        + apply (Same _ T). intros F -> ->. split; [exact F|]. exists e0, t, e. cbn. split; [exact L|]. split; [exact R|]. left. auto. }
    destruct A as ((G1 & C1 & E1) & RS). inversion S as [|x y S1 S2]; subst.
    assert (S2' : Forall (fun r => s_length v1 (snd r) <> None) rows).
    { eapply Forall_impl; [|exact S2]. intros r Hr. destruct (s_length v (snd r)) as [q|] eqn:Q; [|congruence].
      rewrite (s_length_keeps _ _ _ _ (proj1 G1) Q). discriminate. }
    destruct (IH v1 v2 l' C1 E1 S2' Rest) as ((G2 & C2 & E2) & chunks & -> & F).
    split; [split; [eapply grows_trans; eassumption|auto]|]. exists (l :: chunks). split; [reflexivity|]. constructor.
    + eapply row_keeps; [intros x y Hx; exact Hx|apply (proj1 G2)|exact S1|exact RS].
    + clear - F S2 G1. revert chunks F. induction rows as [|r rows IHr]; intros chunks F; inversion F; subst; constructor.
      * inversion S2; subst. eapply row_keeps; [apply (proj1 G1)|intros x1 y1 Hx; exact Hx|assumption|assumption].
      * inversion S2; subst. apply IHr; assumption.
Qed.

(** lengths of the chunk of a row *)
Lemma row_lens strategies v v' row chunk : keeps v v' -> row_sliced strategies v v' row chunk ->
  forall l, s_length v (snd row) = Some l -> exists lens, lens_ok v' chunk lens /\ qsum lens == l.
Proof.
  intros K (e0 & t & e & L & R & [(-> & _)|(c & len & ws & Sk & _ & El & W & (pre & body & post & -> & Z & F))]) l S.
  - exists [l]. split; [|cbn; ring]. constructor; [|constructor]. exists l. split; [eapply s_length_keeps; eassumption|reflexivity].
  - apply resolve_iff in R as R0. destruct R0 as [_ Lt].
    unfold s_length in S. rewrite R in S. unfold skip in Sk. apply orb_false_iff in Sk. destruct Sk as [Sk _]. apply negb_false_iff in Sk.
    rewrite Sk, El in S. injection S as ->. destruct (slice_parent_own v t e l Lt El) as (cl & lp & g & P & Q).
    exists (repeat 0 (List.length pre) ++ layout_lens (drift_like e) l ws ++ repeat 0 (List.length post)). split.
    + apply Forall2_app; [|apply Forall2_app].
      * apply zeros_lens. intros n Hn. apply Z, in_app_iff. auto.
      * eapply lens_eq; [|eapply real_lens; [apply K, P|exact F]]. apply layout_piece; [exact Q|].
        unfold auto_drift. destruct e; cbn; try discriminate. reflexivity.
      * apply zeros_lens. intros n Hn. apply Z, in_app_iff. auto.
    + rewrite !qsum_app, !qsum_repeat, layout_lens_sum. rewrite (iter_drifts _ _ _ W), drift_weights_sum; [ring|].
      unfold iter_weights in W. destruct (zero_custom c l); [discriminate|reflexivity].
Qed.

Lemma layout_kicks auto dr m len w0 from ws : qsum (map kick_weight (layout auto dr m len w0 from ws)) == (if dr then 0 else qsum (kicks ws) * w0).
Proof.
  revert from. induction ws as [|[w [|]] ws IH]; intro from; cbn [layout].
  - destruct dr; cbn; ring.
  - cbn [map qsum]. rewrite IH. unfold kicks. cbn [filter snd negb map]. fold (kicks ws).
    assert (Z : kick_weight (if auto then PDrift (len * w * w0) else PSlice (match m with MThin => SDrift | MThick => if dr then SDrift else SThick end) (w * w0) from) = 0)
      by (destruct auto; [reflexivity|]; destruct m; [reflexivity|destruct dr; reflexivity]).
    rewrite Z. destruct dr; ring.
  - rewrite map_app, qsum_app, IH. unfold kicks. cbn [filter snd negb map fst qsum]. fold (kicks ws). destruct dr; cbn; ring.
Qed.
Lemma layout_body dr m len w0 from ws : qsum (map body_weight (layout false dr m len w0 from ws)) == qsum (drifts ws) * w0.
Proof.
  revert from. induction ws as [|[w [|]] ws IH]; intro from; cbn [layout].
  - cbn. ring.
  - cbn [map qsum]. rewrite IH. unfold drifts. cbn [filter snd map qsum fst]. fold (drifts ws).
    destruct m; [|destruct dr]; cbn; ring.
  - rewrite map_app, qsum_app, IH. unfold drifts. cbn [filter snd map]. fold (drifts ws). destruct dr; cbn; ring.
Qed.
Lemma layout_offsets auto dr m len ws : forall from from', from == from' -> offsets_ok len from' (layout auto dr m len 1 from ws).
Proof.
  induction ws as [|[w [|]] ws IH]; intros from from' E; cbn [layout].
  - exact I.
  - destruct auto; [cbn; apply IH; rewrite E; ring|]. destruct m; [|destruct dr]; cbn; (split; [exact E|apply IH; rewrite E; ring]).
  - destruct dr; cbn; [apply IH, E|]. split; [exact E|apply IH, E].
Qed.
Lemma layout_total auto dr m len w0 lp from ws : len == lp * w0 -> (auto = true -> w0 == 1) ->
  qsum (map (piece_length lp) (layout auto dr m len w0 from ws)) == len * qsum (drifts ws).
Proof.
  intros E A. rewrite <- (layout_lens_sum dr). generalize (layout_piece auto dr m len w0 lp from ws E A).
  induction 1 as [|a b l1 l2 H F IH]; cbn; [reflexivity|]. rewrite H, IH. reflexivity.
Qed.

(** slices of an element with its own length *)
Theorem slice_own v name c mk v' l t cl len g : cache_ok v -> edge_names_ok v -> scheme_ok c = true ->
  resolve v name = Some (t, EOwn cl len g) -> slice_element v name c mk = Some (v', l) ->
  keeps v v' /\ cache_ok v' /\ edge_names_ok v' /\ exists pcs, framed v' t l pcs /\
    offsets_ok len 0 pcs /\ qsum (map (piece_length len) pcs) == len /\
    (auto_drift name (EOwn cl len g) = false -> qsum (map body_weight pcs) == 1) /\
    (qsum (map kick_weight pcs) == (match mode_of c with MThick => 0 | MThin => if is_drift_elem (EOwn cl len g) then 0 else 1 end)).
Proof.
  intros C E Ok R H. destruct (slice_element_ok v name c mk v' l t _ C E R H) as ((G & C' & E') & len' & ws & L & W & F).
  cbn in L. injection L as <-. split; [apply (proj1 G)|]. split; [exact C'|]. split; [exact E'|].
  destruct (weights c len ws Ok W) as (W1 & W2 & W3). cbn [slice_parent parent_weight] in F.
  eexists. split; [exact F|]. split; [apply layout_offsets; reflexivity|]. split; [|split].
  - rewrite layout_total by (intros; ring). rewrite W1. ring.
  - intro A. rewrite A, layout_body, W1. ring.
  - rewrite layout_kicks. unfold drift_like. rewrite orb_false_r. destruct (mode_of c).
    + destruct W2 as (_ & _ & W2); [reflexivity|]. destruct (is_drift_elem _); rewrite ?W2; ring.
    + destruct W3 as (_ & W3); [reflexivity|]. rewrite W3. destruct (is_drift_elem _); cbn; ring.
Qed.

(** slices of a slice *)
Theorem slice_again v name c mk v' l t k p w0 o0 cl lp g : cache_ok v -> edge_names_ok v -> scheme_ok c = true ->
  resolve v name = Some (t, ESlice k p w0 o0) -> lookup v p = Some (EOwn cl lp g) -> slice_element v name c mk = Some (v', l) ->
  keeps v v' /\ cache_ok v' /\ edge_names_ok v' /\ exists pcs, framed v' p l pcs /\
    qsum (map (piece_length lp) pcs) == lp * w0 /\ qsum (map body_weight pcs) == w0 /\
    (qsum (map kick_weight pcs) == (match mode_of c, k with MThin, SDrift | MThick, _ => 0 | MThin, _ => w0 end)).
Proof.
  intros C E Ok R P H. destruct (slice_element_ok v name c mk v' l t _ C E R H) as ((G & C' & E') & len' & ws & L & W & F).
  cbn [elem_length] in L. rewrite P in L. injection L as <-. split; [apply (proj1 G)|]. split; [exact C'|]. split; [exact E'|].
  destruct (weights c _ ws Ok W) as (W1 & W2 & W3). cbn [slice_parent parent_weight] in F.
  unfold auto_drift in F. cbn [is_drift_elem andb] in F.
  eexists. split; [exact F|]. split; [|split].
  - rewrite layout_total; [rewrite W1; ring|reflexivity|discriminate].
  - rewrite layout_body, W1. ring.
  - rewrite layout_kicks. unfold drift_like. cbn [is_drift_elem orb]. destruct (mode_of c).
    + destruct W2 as (_ & _ & W2); [reflexivity|]. destruct k; rewrite ?W2; ring.
    + destruct W3 as (_ & W3); [reflexivity|]. rewrite W3. destruct k; cbn; ring.
Qed.

(** slices of a line *)
Theorem slice_line strategies mk v rows v' names L : cache_ok v -> edge_names_ok v ->
  line_length v (map snd rows) = Some L -> slice_rows strategies mk v rows = Some (v', names) ->
  keeps v v' /\ cache_ok v' /\ edge_names_ok v' /\ (exists L', line_length v' names = Some L' /\ L' == L) /\
  exists chunks, names = List.concat chunks /\
    Forall2 (fun row chunk => exists l l', s_length v (snd row) = Some l /\ line_length v' chunk = Some l' /\ l' == l) rows chunks.
Proof.
  intros C E Hl H.
  assert (S : Forall (fun r => s_length v (snd r) <> None) rows).
  { clear H. revert L Hl. induction rows as [|r rows IH]; intros L Hl; constructor; cbn in Hl; destruct (s_length v (snd r)); try discriminate.
    destruct (line_length v (map snd rows)); [|discriminate]. eapply IH; reflexivity. }
  destruct (slice_rows_ok strategies mk rows v v' names C E S H) as (Ft & chunks & -> & F). pose proof (fits_keeps _ _ Ft) as K.
  split; [exact K|]. split; [apply Ft|]. split; [apply Ft|].
  assert (A : Forall2 (fun row chunk => exists l lens, s_length v (snd row) = Some l /\ lens_ok v' chunk lens /\ qsum lens == l) rows chunks).
  { clear - F K S. induction F as [|row chunk rows chunks H F IH]; constructor; [|apply IH; inversion S; assumption]. inversion S as [|x y S1 S2]; subst.
    destruct (s_length v (snd row)) as [l|] eqn:Sl; [|congruence]. destruct (row_lens _ _ _ _ _ K H l Sl) as (lens & H1 & H2).
    exists l, lens. auto. }
  split.
  - assert (X : exists lens, lens_ok v' (List.concat chunks) lens /\ qsum lens == L).
    { clear - A Hl. revert L Hl. induction A as [|row chunk rows chunks (l & lens & H1 & H2 & H3) A IH]; intros L Hl; cbn in Hl |- *.
      - injection Hl as <-. exists []. split; [constructor|reflexivity].
      - rewrite H1 in Hl. destruct (line_length v (map snd rows)) as [M|]; [|discriminate]. injection Hl as <-.
        destruct (IH M eq_refl) as (lens2 & H4 & H5). exists (lens ++ lens2). split; [apply Forall2_app; assumption|]. rewrite qsum_app, H3, H5. reflexivity. }
    destruct X as (lens & X1 & X2). destruct (lens_line _ _ _ X1) as (L' & Y1 & Y2). exists L'. split; [exact Y1|]. rewrite Y2. exact X2.
  - exists chunks. split; [reflexivity|]. clear - A. induction A as [|row chunk rows chunks (l & lens & H1 & H2 & H3) A IH]; constructor; [|exact IH].
    destruct (lens_line _ _ _ H2) as (l' & Y1 & Y2). exists l, l'. split; [exact H1|]. split; [exact Y1|]. rewrite Y2. exact H3.
Qed.

(** * Strategies *)
Theorem match_iff s name e r : match_element s name e r = true <-> applies s name e r.
Proof.
  unfold match_element, applies. destruct (st_name s) as [f|], (st_type s) as [ty|], (is_drift_elem e); rewrite ?andb_true_iff;
    split; intro H.
  all: repeat match goal with
    | H : _ /\ _ |- _ => destruct H
    | |- _ /\ _ => split
    end; intros; try congruence; auto.
  all: try (left; congruence); try (right; congruence).
  all: try match goal with H : true = true -> _ |- _ => destruct (H eq_refl); congruence end.
Qed.

Theorem last_wins strategies name e r c :
  scheme_for_element strategies name e r = Some c <->
  exists before s after, drifts_untouched :: strategies = before ++ s :: after /\ applies s name e r /\ st_slicing s = c
    /\ Forall (fun s' => ~ applies s' name e r) after.
Proof.
  unfold scheme_for_element. generalize (drifts_untouched :: strategies) as l. intro l. split.
  - destruct (List.find _ (rev l)) as [s|] eqn:F; [|discriminate]. intros [= <-].
    assert (G : forall m s, List.find (fun s => match_element s name e r) m = Some s ->
      exists a b, m = a ++ s :: b /\ match_element s name e r = true /\ Forall (fun s' => match_element s' name e r = false) a).
    { clear. induction m as [|x m IH]; intros s F; [discriminate|]. cbn in F. destruct (match_element x name e r) eqn:M.
      - injection F as <-. exists [], m. auto.
      - destruct (IH s F) as (a & b & -> & H1 & H2). exists (x :: a), b. auto. }
    destruct (G _ _ F) as (a & b & E & M & N). exists (rev b), s, (rev a). split; [|split; [apply match_iff, M|split; [reflexivity|]]].
    + rewrite <- (rev_involutive l), E, rev_app_distr. cbn. rewrite <- app_assoc. reflexivity.
    + apply Forall_rev. eapply Forall_impl; [|exact N]. intros x Hx C. apply match_iff in C. congruence.
  - intros (a & s & b & -> & M & <- & N). rewrite rev_app_distr. cbn. rewrite <- app_assoc. cbn.
    assert (X : forall m, Forall (fun s' => ~ applies s' name e r) m -> List.find (fun s => match_element s name e r) (m ++ s :: rev a) = Some s).
    { induction m as [|x m IH]; intro F; cbn; [apply match_iff in M; rewrite M; reflexivity|]. inversion F as [|y z F1 F2]; subst.
      destruct (match_element x name e r) eqn:Mx; [exfalso; apply F1, match_iff, Mx|]. apply IH, F2. }
    rewrite X; [reflexivity|apply Forall_rev, N].
Qed.
Theorem no_scheme strategies name e r : scheme_for_element strategies name e r = None <->
  Forall (fun s => ~ applies s name e r) (drifts_untouched :: strategies).
Proof.
  unfold scheme_for_element. generalize (drifts_untouched :: strategies) as l. intro l. split.
  - destruct (List.find _ (rev l)) as [s|] eqn:F; [discriminate|]. intros _. apply Forall_forall. intros s Hs C.
    apply match_iff in C. apply in_rev in Hs. pose proof (find_none _ _ F s Hs) as X. cbn in X. congruence.
  - intro F. destruct (List.find _ (rev l)) as [s|] eqn:E; [exfalso|reflexivity]. apply find_some in E. destruct E as [H1 H2].
    apply in_rev in H1. rewrite Forall_forall in F. apply (F s H1), match_iff, H2.
Qed.

(** which rows are sliced, and how; an error if nothing applies to one that should be *)
Theorem rows_left strategies mk v rows v' names : cache_ok v -> edge_names_ok v ->
  Forall (fun r => s_length v (snd r) <> None) rows -> slice_rows strategies mk v rows = Some (v', names) ->
  exists chunks, names = List.concat chunks /\
    Forall2 (fun row chunk => exists e t r, lookup v (snd row) = Some e /\ resolve v (snd row) = Some (t, r) /\
      (thick r = false \/ scheme_for_element strategies (fst row) e r = Some None -> chunk = [snd row]) /\
      (thick r = true -> (forall c l g, e = EOwn c l g -> ~ l == 0) -> scheme_for_element strategies (fst row) e r <> None)) rows chunks.
Proof.
  intros C E S H. destruct (slice_rows_ok strategies mk rows v v' names C E S H) as (_ & chunks & -> & F).
  exists chunks. split; [reflexivity|]. clear - F. induction F as [|row chunk rows chunks H F IH]; constructor; [|exact IH].
  destruct H as (e0 & t & e & L & R & Out). exists e0, t, e. split; [exact L|]. split; [exact R|].
  destruct Out as [(-> & Sk)|(c & len & ws & Sk & Sn & _)]; split.
  - reflexivity.
  - intros T Z. destruct Sk as [Sk|Sk]; [|congruence]. exfalso. unfold skip in Sk. rewrite T in Sk. cbn in Sk.
    destruct e0 as [c l g| | |]; try discriminate. apply Qeq_bool_iff in Sk. eapply Z; [reflexivity|exact Sk].
  - unfold skip in Sk. apply orb_false_iff in Sk. destruct Sk as [Sk _]. apply negb_false_iff in Sk. intros [X|X]; congruence.
  - intros _ _. congruence.
Qed.

(** * When slicing succeeds *)
Theorem slice_rows_defined strategies mk : forall rows v, cache_ok v -> edge_names_ok v ->
  Forall (fun row => exists l e t r, s_length v (snd row) = Some l /\ lookup v (snd row) = Some e /\ resolve v (snd row) = Some (t, r) /\
    (skip v e r = false -> exists o, scheme_for_element strategies (fst row) e r = Some o /\ forall c, o = Some c -> usable c l)) rows ->
  exists r, slice_rows strategies mk v rows = Some r.
Proof.
  induction rows as [|[nn n] rows IH]; intros v C E F; cbn [slice_rows]; [eauto|].
  inversion F as [|x y (l & e & t & r & Sl & L & R & Sc) F']; subst. cbn [fst snd] in *. rewrite L, R.
  set (this := if skip v e r then Some (v, [n]) else _).
  assert (A : exists v1 l1, this = Some (v1, l1) /\ fits v v1).
  { assert (Same : fits v v) by (split; [apply grows_refl|auto]). unfold this. destruct (skip v e r) eqn:Sk; [eauto|].
    destruct (Sc eq_refl) as (o & -> & U). destruct o as [c|]; [|eauto].
    assert (El : elem_length v r = Some l).
    { unfold s_length in Sl. rewrite R in Sl. unfold skip in Sk. apply orb_false_iff in Sk. destruct Sk as [Sk _]. apply negb_false_iff in Sk.
      rewrite Sk in Sl. exact Sl. }
    assert (D : exists r0, slice_element v n c mk = Some r0).
    { unfold slice_element. rewrite L. destruct (make_slices_defined v n c t r l R El (U c eq_refl)) as ([v1 l1] & ->).
      destruct (mk && _); eauto. }
    destruct D as ([v1 l1] & D). exists v1, l1. split; [exact D|]. apply (slice_element_ok v n c mk v1 l1 t r C E R D). }
  destruct A as (v1 & l1 & -> & (G & C1 & E1)). destruct (IH v1 C1 E1) as ([v2 l2] & ->); [|eauto].
  eapply Forall_impl; [|exact F']. intros row (l0 & e0 & t0 & r0 & H1 & H2 & H3 & H4). exists l0, e0, t0, r0.
  split; [eapply s_length_keeps; [apply (proj1 G)|exact H1]|]. split; [apply (proj1 G), H2|]. split; [eapply resolve_keeps; [apply (proj1 G)|exact H3]|exact H4].
Qed.

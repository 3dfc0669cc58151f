From Coq Require Import List String Bool Arith QArith Qabs Lia.
Import ListNotations.
From Verif.Model Require Import Serialize.
From Verif.Spec Require Import Serialize.
Local Open Scope string_scope.

(** ** Dictionaries *)
Lemma eqb_neq : forall k k', k <> k' -> String.eqb k k' = false.
Proof. intros; apply String.eqb_neq; assumption. Qed.
Lemma get_none : forall A k (d : list (string * A)), ~ In k (keys d) -> get k d = None.
Proof.
  induction d as [|[k' v] d IH]; intros H; [reflexivity|].
  cbn in *. rewrite eqb_neq by (intro; subst; apply H; left; reflexivity). apply IH; intro; apply H; right; assumption.
Qed.
Lemma has_false : forall A k (d : list (string * A)), ~ In k (keys d) -> has k d = false.
Proof. intros. unfold has. rewrite get_none by assumption. reflexivity. Qed.
Lemma has_true : forall A k (d : list (string * A)), In k (keys d) -> has k d = true.
Proof.
  unfold has. induction d as [|[k' v] d IH]; intros H; [destruct H|].
  cbn in *. destruct (String.eqb_spec k k'); [reflexivity|]. destruct H as [H|H]; [congruence|apply IH; exact H].
Qed.
Lemma set_get : forall A k (v : A) d, get k d = Some v -> set k v d = d.
Proof.
  induction d as [|[k' v'] d IH]; cbn; intros H; [discriminate|].
  destruct (String.eqb_spec k k'); [congruence|]. rewrite IH by exact H. reflexivity.
Qed.
Lemma set_new : forall A k (v : A) d, ~ In k (keys d) -> set k v d = (d ++ [(k, v)])%list.
Proof.
  induction d as [|[k' v'] d IH]; cbn; intros H; [reflexivity|].
  rewrite eqb_neq by (intro; subst; apply H; left; reflexivity). rewrite IH by (intro; apply H; right; assumption). reflexivity.
Qed.
Lemma set_mid : forall A k (v v' : A) d1 d2, ~ In k (keys d1) -> set k v (d1 ++ (k, v') :: d2)%list = (d1 ++ (k, v) :: d2)%list.
Proof.
  induction d1 as [|[k1 v1] d1 IH]; cbn; intros d2 H.
  - rewrite String.eqb_refl. reflexivity.
  - rewrite eqb_neq by (intro; subst; apply H; left; reflexivity). rewrite IH by (intro; apply H; right; assumption). reflexivity.
Qed.
Lemma update_all : forall A (e d pre : list (string * A)) more,
  keys e = (keys d ++ more)%list -> NoDup (keys pre ++ keys e)%list -> update (pre ++ d)%list e = (pre ++ e)%list.
Proof.
  unfold update. induction e as [|[k v] e IH]; intros d pre more Hk Hn.
  - destruct d; [reflexivity|discriminate].
  - assert (Hp : ~ In k (keys pre)).
    { apply NoDup_remove_2 in Hn. intro; apply Hn; apply in_or_app; left; assumption. }
    destruct d as [|[k' v'] d].
    + cbn. rewrite app_nil_r. rewrite set_new by exact Hp.
      transitivity ((pre ++ [(k, v)]) ++ e)%list; [|rewrite <- app_assoc; reflexivity].
      rewrite <- (app_nil_r (pre ++ [(k, v)])) at 1. apply (IH [] (pre ++ [(k, v)])%list (keys e)); [reflexivity|].
      unfold keys in *. rewrite map_app. cbn. rewrite <- app_assoc. exact Hn.
    + cbn in Hk. injection Hk as -> Hk. cbn. rewrite set_mid by exact Hp.
      transitivity ((pre ++ [(k', v)]) ++ e)%list; [|rewrite <- app_assoc; reflexivity].
      replace (pre ++ (k', v) :: d)%list with ((pre ++ [(k', v)]) ++ d)%list by (rewrite <- app_assoc; reflexivity).
      apply (IH d (pre ++ [(k', v)])%list more); [exact Hk|].
      unfold keys in *. rewrite map_app. cbn. rewrite <- app_assoc. exact Hn.
Qed.
Lemma update_over : forall A (e d : list (string * A)) more, keys e = (keys d ++ more)%list -> NoDup (keys e) -> update d e = e.
Proof. intros A e d more Hk Hn. apply (update_all A e d [] more Hk Hn). Qed.
Lemma update_nil : forall A (e : list (string * A)), NoDup (keys e) -> update [] e = e.
Proof. intros A e Hn. apply (update_over A e [] (keys e)); [reflexivity|exact Hn]. Qed.
Lemma pop_other : forall A k (d : list (string * A)), ~ In k (keys d) -> pop k d = d.
Proof.
  unfold pop. induction d as [|[k' v] d IH]; intros H; [reflexivity|]. cbn in *.
  rewrite eqb_neq by (intro; subst; apply H; left; reflexivity). cbn. rewrite IH by (intro; apply H; right; assumption). reflexivity.
Qed.
Lemma pop_app : forall A k (d e : list (string * A)), pop k (d ++ e)%list = (pop k d ++ pop k e)%list.
Proof. intros. unfold pop. apply filter_app. Qed.
Lemma get_app : forall A k (d e : list (string * A)), ~ In k (keys d) -> get k (d ++ e)%list = get k e.
Proof.
  induction d as [|[k' v] d IH]; intros e H; [reflexivity|]. cbn in *.
  rewrite eqb_neq by (intro; subst; apply H; left; reflexivity). apply IH. intro; apply H; right; assumption.
Qed.
Lemma all_some_map : forall A B C (f : B -> option C) (g : A -> B) (h : A -> C) l,
  (forall x, In x l -> f (g x) = Some (h x)) -> all_some f (map g l) = Some (map h l).
Proof.
  induction l as [|x l IH]; intros H; [reflexivity|]. cbn. rewrite H by (left; reflexivity).
  rewrite IH by (intros; apply H; right; assumption). reflexivity.
Qed.
Lemma map_pair_id : forall A (l : list (string * A)), map (fun p => (fst p, snd p)) l = l.
Proof. induction l as [|[k v] l IH]; cbn; [reflexivity|]. rewrite IH. reflexivity. Qed.
Lemma keys_blobs : forall l, keys (blobs l) = keys l.
Proof. intros. unfold keys, blobs. rewrite map_map. reflexivity. Qed.
Lemma all_blobs : forall l, all_some (named as_blob) (blobs l) = Some l.
Proof.
  intros. unfold blobs. rewrite (all_some_map _ _ _ _ _ (fun p => (fst p, snd p))) by reflexivity. rewrite map_pair_id. reflexivity.
Qed.
Lemma all_strings : forall l, all_some as_str (map JStr l) = Some l.
Proof. intros. rewrite (all_some_map _ _ _ _ _ (fun x => x)) by reflexivity. rewrite map_id. reflexivity. Qed.
Lemma read_dict_of : forall A B (f : json -> option B) (g : A -> json) (h : A -> B) l,
  (forall n x, In (n, x) l -> f (g x) = Some (h x)) -> read_dict f (dict_of g l) = Some (map (fun p => (fst p, h (snd p))) l).
Proof.
  intros A B f g h l H. unfold read_dict, dict_of. cbn [as_obj]. apply all_some_map. intros [n x] Hi. unfold named. cbn. rewrite (H n x Hi). reflexivity.
Qed.
Lemma read_dict_id : forall A (f : json -> option A) (g : A -> json) l,
  (forall n x, In (n, x) l -> f (g x) = Some x) -> read_dict f (dict_of g l) = Some l.
Proof. intros. rewrite (read_dict_of _ _ _ _ (fun x => x)) by assumption. rewrite map_pair_id. reflexivity. Qed.

(** ** Elements *)
Lemma element_round : forall e, element_ok e -> element_from_dict (element_to_dict e) = Some e.
Proof.
  intros [e|p]; [|reflexivity]. destruct e as [c f a x pr]. intros [Hc Hf]. cbn [be_class be_fields] in Hc, Hf.
  assert (H1 := Hf "__class__" ltac:(cbn; tauto)). assert (H2 := Hf "name_associated_aperture" ltac:(cbn; tauto)).
  assert (H3 := Hf "extra" ltac:(cbn; tauto)). assert (H4 := Hf "prototype" ltac:(cbn; tauto)). clear Hf.
  rewrite <- keys_blobs in H1, H2, H3, H4.
  assert (E : forall d0 : dict, d0 = blobs f ->
     element_to_dict (Beam (mkElement c f a x pr)) =
     JObj (("__class__", JStr c) :: d0 ++ (match a with Some a => [("name_associated_aperture", JStr a)] | None => [] end ++
            match x with [] => [] | _ => [("extra", JObj (blobs x))] end ++ match pr with Some p => [("prototype", JStr p)] | None => [] end))%list).
  { intros d0 ->. unfold element_to_dict, opt_key; cbn [be_class be_fields be_aperture be_extra be_prototype].
    assert (N : forall k v (d : dict), k <> "__class__" -> ~ In k (keys d) -> set k v (("__class__", JStr c) :: d) = (("__class__", JStr c) :: d ++ [(k, v)])%list).
    { intros k v d K1 K2. cbn [set]. rewrite eqb_neq by exact K1. rewrite set_new by exact K2. reflexivity. }
    assert (NI : forall k (l m : dict), ~ In k (keys l) -> ~ In k (keys m) -> ~ In k (keys (l ++ m))%list).
    { unfold keys. intros k l m A B C. rewrite map_app in C. apply in_app_or in C. tauto. }
    destruct a as [a|]; destruct x as [|x0 x]; destruct pr as [pr|]; cbn [app];
      repeat (rewrite N by (try discriminate; repeat (apply NI || assumption || (cbn; intuition discriminate))));
      rewrite ?app_nil_r, <- ?app_assoc; reflexivity. }
  rewrite (E _ eq_refl). clear E. unfold element_from_dict.
  cbn [get]. rewrite String.eqb_refl.
  match goal with |- context [(blobs f ++ ?t)%list] => set (tl := t) end.
  assert (P : pop "__class__" (("__class__", JStr c) :: blobs f ++ tl)%list = (blobs f ++ tl)%list).
  { cbn [pop filter fst]. unfold pop. cbn [filter fst]. rewrite String.eqb_refl. cbn [negb].
    change (pop "__class__" (blobs f ++ tl) = (blobs f ++ tl))%list. apply pop_other.
    unfold keys. rewrite map_app. intro I. apply in_app_or in I. destruct I as [I|I]; [exact (H1 I)|].
    revert I. subst tl. destruct a, x, pr; cbn; intuition discriminate. }
  rewrite P. rewrite eqb_neq by exact Hc. unfold read_opt. rewrite !get_app by assumption. rewrite !pop_app.
  rewrite !(pop_other _ _ (blobs f)) by assumption.
  subst tl. destruct a as [a|]; destruct x as [|x0 x]; destruct pr as [pr|]; cbn [app get String.eqb Ascii.eqb Bool.eqb pop filter negb fst as_str as_obj];
    rewrite ?app_nil_r, ?all_blobs; reflexivity.
Qed.

(** ** Particles *)
Lemma tsim_round : forall t, tsim_from_dict (tsim_to_dict t) = Some t.
Proof. destruct t; cbn; try reflexivity. rewrite all_strings. reflexivity. Qed.
Lemma particle_round : forall p, particle_from_dict (particle_to_dict p) = Some p.
Proof. destruct p as [d t]. unfold particle_from_dict, particle_to_dict. cbn [get String.eqb Ascii.eqb Bool.eqb pt_data pt_tsim]. rewrite tsim_round. reflexivity. Qed.
Lemma ref_round : forall r, ref_from_dict (ref_to_dict r) = Some r.
Proof. destruct r as [n|p]; [reflexivity|]. cbn [ref_to_dict]. unfold ref_from_dict. rewrite particle_round. reflexivity. Qed.
Lemma particles_round : forall l, read_dict particle_from_dict (dict_of particle_to_dict l) = Some l.
Proof. intros. apply read_dict_id. intros. apply particle_round. Qed.

(** ** Composers *)
Lemma anchor_allowed : forall a, (forall x, a = Some x -> In x anchors) -> allowed_anchor a = true.
Proof.
  intros [a|] H; [|reflexivity]. unfold allowed_anchor. apply existsb_exists. exists a. split; [apply H; reflexivity|apply String.eqb_refl].
Qed.
Lemma component_round : forall e c, (forall p, c = CPlace p -> place_ok e p) ->
  component_from_dict (fun n => has n (en_elements e)) (component_to_dict c) = Some (plain_component c).
Proof.
  intros e [n|p] H; [reflexivity|]. specialize (H p eq_refl). destruct p as [n a f an fa]. destruct H as (H1 & H2 & H3 & H4); cbn in H1, H2, H3, H4.
  assert (N : new_place (fun n => has n (en_elements e)) n (option_map text_of a) f an fa = Some (mkPlace n (option_map text_of a) f an fa)).
  { unfold new_place.
    assert (R : match option_map text_of a with
           | Some (QText t) => if contains_at t then None else if has t (en_elements e) then Some (Some (QNum "0"), Some t) else Some (option_map text_of a, f)
           | _ => Some (option_map text_of a, f) end = Some (option_map text_of a, f)).
    { destruct a as [[b|t|t]|]; cbn; try reflexivity; destruct (H1 _ t eq_refl eq_refl) as [A B]; rewrite A, has_false by exact B; reflexivity. }
    rewrite R. rewrite !anchor_allowed by assumption.
    destruct f as [f|]; [rewrite (H2 f eq_refl)|]; reflexivity. }
  unfold component_from_dict, component_to_dict, plain_component, plain_place, read_opt, opt_key. cbn [pl_name pl_at pl_from pl_anchor pl_from_anchor].
  destruct a as [[b|t|t]|], f as [f|], an as [an|], fa as [fa|]; cbn [set get String.eqb Ascii.eqb Bool.eqb as_str quantity_to_dict quantity_from_dict];
    cbn [option_map text_of] in *; rewrite N; reflexivity.
Qed.
Lemma composer_round : forall e c, composer_ok e c ->
  composer_from_dict (fun n => has n (en_elements e)) (composer_to_dict c) = Some (plain_composer c).
Proof.
  intros e [cs r l st m] H. unfold composer_ok in H; cbn in H.
  assert (C : all_some (component_from_dict (fun n => has n (en_elements e))) (map component_to_dict cs) = Some (map plain_component cs)).
  { apply all_some_map. intros c Hc. apply component_round. intros p ->. apply H; exact Hc. }
  revert C. generalize (fun n => has n (en_elements e)). intros isel C.
  unfold composer_from_dict, composer_to_dict, plain_composer, read_opt, opt_key, has. cbn [co_components co_refer co_length co_s_tol co_mirror].
  destruct r as [r|], l as [[b|t|t]|], st as [st|], m as [[|]|];
    cbn [set get String.eqb Ascii.eqb Bool.eqb as_str as_bool as_blob quantity_to_dict quantity_from_dict or option_map text_of];
    rewrite C; reflexivity.
Qed.
Lemma plain_composer_plain : forall c, plain_composer (plain_composer c) = plain_composer c.
Proof.
  intros [cs r l st m]. unfold plain_composer; cbn [co_components co_refer co_length co_s_tol co_mirror].
  rewrite map_map. f_equal.
  - apply map_ext. intros [n|[n a f an fa]]; [reflexivity|]. unfold plain_component, plain_place. cbn. do 2 f_equal. destruct a as [[]|]; reflexivity.
  - destruct r; reflexivity.
  - destruct l as [[]|]; reflexivity.
  - destruct st; reflexivity.
  - destruct m; reflexivity.
Qed.
Lemma plain_composer_ok : forall e c, composer_ok e c -> composer_ok e (plain_composer c).
Proof.
  unfold composer_ok. intros e c H p Hi. cbn in Hi. apply in_map_iff in Hi. destruct Hi as [[n|q] [E Hi]]; [discriminate|].
  injection E as <-. destruct (H q Hi) as (H1 & H2 & H3 & H4). unfold place_ok, plain_place; cbn. repeat split; try assumption.
  - destruct (pl_at q) as [r|] eqn:A; cbn in H0; [|discriminate]. injection H0 as <-.
    destruct r; cbn in H5; try discriminate; eapply H1; try reflexivity; exact H5.
  - destruct (pl_at q) as [r|] eqn:A; cbn in H0; [|discriminate]. injection H0 as <-.
    destruct r; cbn in H5; try discriminate; eapply H1; try reflexivity; exact H5.
Qed.

(** ** Lines *)
Definition line_keys : list string :=
  ["__class__"; "element_names"; "particle_ref"; "config"; "mode"; "_extra_config"; "metadata"; "_element_names_before_slicing"; "composer"].
Lemma set_ref_same : forall f e r nn, ref_ok e r -> set_ref f (en_particles e) nn r = Some (r, en_particles e).
Proof.
  intros f e [n|p] nn [q [Hq Ht]]; cbn in Hq; unfold set_ref.
  - rewrite Hq. destruct q as [d [| |]]; cbn in *; [congruence| |]; (rewrite set_get by exact Hq); reflexivity.
  - injection Hq as ->. destruct q as [d [| |]]; cbn in *; [congruence| |]; reflexivity.
Qed.
Lemma line_round : forall e l d env_ref, line_ok e l -> (ln_ref l = None -> env_ref = None) ->
  (forall k, In k line_keys -> get k d = get k (line_to_dict l)) ->
  line_from_dict (fun n => has n (en_elements e)) env_ref (en_particles e) d = Done (plain_line l, en_particles e).
Proof.
  intros e [nm cfg ex co comp bs r m] d env_ref (H1 & [nn H2] & H3 & H4 & [more H5] & H6 & H7) H8 Hd.
  cbn [ln_names ln_config ln_extra ln_compose ln_composer ln_before_slicing ln_ref ln_metadata] in *. subst co nm.
  assert (D : forall k v, In k line_keys -> get k (line_to_dict (mkLine (Names nn) cfg ex false comp bs r m)) = v -> get k d = v).
  { intros k v K <-. apply Hd; exact K. }
  assert (K1 : get "__class__" d = Some (JStr "Line")) by (apply D; [cbn; tauto|destruct comp, bs, r; reflexivity]).
  assert (K2 : get "element_names" d = Some (JList (map JStr nn))) by (apply D; [cbn; tauto|destruct comp, bs, r; reflexivity]).
  assert (K3 : get "particle_ref" d = option_map ref_to_dict r) by (apply D; [cbn; tauto|destruct comp, bs, r; reflexivity]).
  assert (K4 : get "config" d = Some (JObj (blobs cfg))) by (apply D; [cbn; tauto|destruct comp, bs, r; reflexivity]).
  assert (K5 : get "mode" d = Some (JStr "normal")) by (apply D; [cbn; tauto|destruct comp, bs, r; reflexivity]).
  assert (K6 : get "_extra_config" d = Some (JObj ex)) by (apply D; [cbn; tauto|destruct comp, bs, r; reflexivity]).
  assert (K7 : get "metadata" d = Some (JBlob m)) by (apply D; [cbn; tauto|destruct comp, bs, r; reflexivity]).
  assert (K8 : get "_element_names_before_slicing" d = option_map (fun n => JList (map JStr n)) bs) by (apply D; [cbn; tauto|destruct comp, bs, r; reflexivity]).
  assert (K9 : get "composer" d = option_map composer_to_dict comp) by (apply D; [cbn; tauto|destruct comp, bs, r; reflexivity]).
  clear D Hd. unfold line_from_dict, read_opt. rewrite K1, K2, K3, K4, K5, K6, K7, K8, K9.
  cbn [String.eqb Ascii.eqb Bool.eqb bind need read_names]. rewrite all_strings. cbn [bind need].
  assert (R : (match option_map ref_to_dict r with None => Some None | Some j => match ref_from_dict j with Some a => Some (Some a) | None => None end end) = Some r).
  { destruct r as [r|]; cbn [option_map]; [rewrite ref_round|]; reflexivity. }
  rewrite R; clear R. cbn [bind need].
  assert (R : (match r with Some r0 => bind (need (set_ref (fun n => has n (en_elements e)) (en_particles e) nn r0)) (fun p => Done (Some (fst p), snd p)) | None => Done (env_ref, en_particles e) end)
              = Done (r, en_particles e)).
  { destruct r as [r|]; [rewrite set_ref_same by (apply H7; reflexivity); reflexivity|rewrite H8 by reflexivity; reflexivity]. }
  rewrite R; clear R. cbn [bind].
  unfold read_blobs. cbn [as_obj as_str as_blob or_default]. rewrite all_blobs. cbn [or_default need bind].
  rewrite update_nil by exact H3. rewrite (update_over _ ex default_extra more) by assumption.
  assert (R : match option_map (fun n => JList (map JStr n)) bs with Some j => match read_strings j with Some a => Some (Some a) | None => None end | None => Some None end = Some bs).
  { destruct bs; cbn [option_map]; [|reflexivity]. unfold read_strings. cbn [as_list]. rewrite all_strings. reflexivity. }
  rewrite R; clear R. cbn [bind need].
  assert (R : match option_map composer_to_dict comp with
              | Some j => match composer_from_dict (fun n => has n (en_elements e)) j with Some a => Some (Some a) | None => None end | None => Some None end
              = Some (option_map plain_composer comp)).
  { destruct comp as [c|]; cbn [option_map]; [|reflexivity]. rewrite composer_round by (apply H6; reflexivity). reflexivity. }
  rewrite R; clear R. cbn [bind need fst snd andb]. reflexivity.
Qed.

(** ** Environments *)
Lemma func_round : forall f, ~ In "__class__" (keys (fn_fields f)) -> func_from_dict (func_to_dict f) = Some f.
Proof.
  intros [c f] H; cbn [fn_fields] in H. rewrite <- keys_blobs in H. unfold func_from_dict, func_to_dict. cbn [fn_class fn_fields as_obj].
  rewrite set_new by exact H. rewrite get_app by exact H. rewrite pop_app, pop_other by exact H.
  cbn [get String.eqb Ascii.eqb Bool.eqb pop filter negb fst]. rewrite app_nil_r, all_blobs. reflexivity.
Qed.
Lemma vars_round : forall v d, vars_ok v -> (forall k, In k ["_var_management_data"; "_var_manager"] -> get k d = get k (vars_to_dict v)) ->
  vars_from_dict d = Some v.
Proof.
  intros [vv ff m] d (H1 & [more H2] & H3 & H4) Hd. cbn [va_values va_funcs va_manager] in *.
  unfold vars_from_dict. cbv zeta. rewrite !Hd by (cbn; tauto). cbn [vars_to_dict get String.eqb Ascii.eqb Bool.eqb va_values va_funcs va_manager].
  unfold read_blobs. cbn [as_obj]. rewrite all_blobs. rewrite read_dict_id by (intros n f Hf; apply func_round; exact (H4 n f Hf)).
  rewrite update_nil by exact H3. do 2 f_equal. apply (update_over _ vv _ more); assumption.
Qed.
Lemma bb_round : forall b, bb_ok b -> read_bb (dict_of bb_to_dict b) = Some b.
Proof.
  intros b [H1 H2]. unfold read_bb, dict_of. cbn [as_obj].
  rewrite has_true.
  2:{ unfold keys. rewrite map_map. exact H1. }
  rewrite (all_some_map _ _ _ _ _ (fun p => (fst p, snd p))); [rewrite map_pair_id; reflexivity|].
  intros [k i] Hi. specialize (H2 k i Hi). unfold bb_from_dict. cbn [fst snd]. destruct i as [l|b0].
  - subst k. cbn [String.eqb Ascii.eqb Bool.eqb bb_to_dict]. rewrite read_dict_id; [reflexivity|].
    intros n [x|] _; reflexivity.
  - rewrite eqb_neq by exact H2. reflexivity.
Qed.
Lemma load_lines_round : forall e ls done base,
  (forall n l, In (n, l) ls -> line_ok e l /\ (ln_ref l = None -> en_ref e = None) /\
     ~ In n (keys (en_elements e)) /\ ~ In n (keys (en_particles e)) /\ ~ In n (keys (va_values (en_vars e)))) ->
  NoDup (keys done ++ keys ls)%list ->
  base = mkEnv (en_elements e) (en_ref e) (en_vars e) None "{}" done (en_particles e) ->
  load_lines (map (fun p => (fst p, line_in_env_to_dict (en_particles e) (snd p))) ls) base =
  Done (mkEnv (en_elements e) (en_ref e) (en_vars e) None "{}" (done ++ map (fun p => (fst p, plain_line (snd p))) ls)%list (en_particles e)).
Proof.
  intros e ls. induction ls as [|[n l] ls IH]; intros don base H Hn ->.
  - cbn. rewrite app_nil_r. reflexivity.
  - destruct (H n l (or_introl eq_refl)) as (A1 & A2 & A3 & A4 & A5).
    assert (A6 : ~ In n (keys don)). { apply NoDup_remove_2 in Hn. intro; apply Hn; apply in_or_app; left; assumption. }
    cbn [map load_lines fst snd]. unfold line_in_env_to_dict at 1. cbn [as_obj need bind].
    match goal with |- context [has "elements" ?d] => set (d0 := d) end.
    assert (B : has "elements" d0 || has "_var_manager" d0 = false).
    { subst d0. unfold line_to_dict. destruct (ln_composer l), (ln_before_slicing l), (ln_ref l); reflexivity. }
    rewrite B. cbn [en_elements en_ref en_particles].
    rewrite (line_round e l d0 (en_ref e) A1 A2).
    2:{ intros k Hk. subst d0. unfold line_to_dict. destruct (ln_composer l), (ln_before_slicing l), (ln_ref l);
        repeat (destruct Hk as [<-|Hk]; [reflexivity|]); destruct Hk. }
    cbn [bind fst snd]. unfold add_line, with_particles. cbn [en_elements en_ref en_vars en_bb en_metadata en_lines en_particles].
    rewrite !has_false by assumption. cbn [orb need bind].
    rewrite (IH (don ++ [(n, plain_line l)])%list _ (fun n l Hi => H n l (or_intror Hi))); [| |reflexivity].
    + rewrite <- app_assoc. reflexivity.
    + unfold keys in *. rewrite map_app. cbn. rewrite <- app_assoc. exact Hn.
Qed.
Lemma env_round : forall e, env_ok e -> env_from_dict (env_to_dict e) = Done (plain_env e).
Proof.
  intros e (H1 & H2 & H3 & H4 & H5 & H6). unfold env_from_dict, read_opt.
  assert (K1 : get "elements" (env_to_dict e) = Some (dict_of element_to_dict (en_elements e))).
  { unfold env_to_dict. destruct (en_ref e), (en_bb e); reflexivity. }
  assert (K2 : get "particles" (env_to_dict e) = Some (dict_of particle_to_dict (en_particles e))).
  { unfold env_to_dict. destruct (en_ref e), (en_bb e); reflexivity. }
  assert (K3 : get "particle_ref" (env_to_dict e) = option_map ref_to_dict (en_ref e)).
  { unfold env_to_dict. destruct (en_ref e), (en_bb e); reflexivity. }
  assert (K4 : get "lines" (env_to_dict e) = Some (dict_of (line_in_env_to_dict (en_particles e)) (en_lines e))).
  { unfold env_to_dict. destruct (en_ref e), (en_bb e); reflexivity. }
  assert (K5 : get "_bb_config" (env_to_dict e) = option_map (dict_of bb_to_dict) (en_bb e)).
  { unfold env_to_dict. destruct (en_ref e), (en_bb e); reflexivity. }
  assert (K6 : get "metadata" (env_to_dict e) = Some (JBlob (en_metadata e))).
  { unfold env_to_dict. destruct (en_ref e), (en_bb e); reflexivity. }
  rewrite K1, K2, K3, K4, K5, K6. rewrite read_dict_id by (intros n x Hx; apply element_round; exact (H1 n x Hx)).
  cbn [need bind]. rewrite particles_round. cbn [or_default need bind]. rewrite update_nil by exact H2.
  assert (R : (match option_map ref_to_dict (en_ref e) with None => Some None | Some j => match ref_from_dict j with Some a => Some (Some a) | None => None end end) = Some (en_ref e)).
  { destruct (en_ref e) as [r|]; cbn [option_map]; [rewrite ref_round|]; reflexivity. }
  rewrite R; clear R. cbn [bind need].
  rewrite (vars_round (en_vars e)); [|exact H3|].
  2:{ intros k Hk. unfold env_to_dict. destruct (en_ref e), (en_bb e); repeat (destruct Hk as [<-|Hk]; [reflexivity|]); destruct Hk. }
  cbn [bind need]. unfold dict_of at 1. cbn [as_obj bind need].
  rewrite (load_lines_round e (en_lines e) [] _ H6 H5 eq_refl). cbn [bind app].
  assert (R : (match option_map (dict_of bb_to_dict) (en_bb e) with None => Some None | Some j => match read_bb j with Some a => Some (Some a) | None => None end end) = Some (en_bb e)).
  { destruct (en_bb e) as [b|]; cbn [option_map]; [rewrite bb_round by (apply H4; reflexivity)|]; reflexivity. }
  rewrite R; clear R. cbn [bind need as_blob or_default en_elements en_ref en_vars en_lines en_particles]. reflexivity.
Qed.
Lemma plain_line_plain : forall l, plain_line (plain_line l) = plain_line l.
Proof. intros [nm cfg ex co comp bs r m]. unfold plain_line; cbn. destruct comp as [c|]; cbn; [rewrite plain_composer_plain|]; reflexivity. Qed.
Lemma plain_env_plain : forall e, plain_env (plain_env e) = plain_env e.
Proof.
  intros e. unfold plain_env; cbn. f_equal. rewrite map_map. apply map_ext. intros [n l]; cbn. rewrite plain_line_plain. reflexivity.
Qed.
Lemma plain_env_ok : forall e, env_ok e -> env_ok (plain_env e).
Proof.
  intros e (H1 & H2 & H3 & H4 & H5 & H6). unfold env_ok, plain_env.
  cbn [en_elements en_ref en_vars en_bb en_metadata en_lines en_particles].
  refine (conj H1 (conj H2 (conj H3 (conj H4 (conj _ _))))).
  - unfold keys in *. rewrite map_map. exact H5.
  - intros n l H. apply in_map_iff in H. destruct H as [[n' l'] [E Hi]]. injection E as <- <-. cbn [fst snd].
    destruct (H6 n' l' Hi) as ((A1 & A2 & A3 & A4 & A5 & A6 & A7) & B & C). refine (conj _ (conj B C)).
    refine (conj A1 (conj A2 (conj A3 (conj A4 (conj A5 (conj _ A7)))))).
    cbn [plain_line ln_composer]. intros c Hc. destruct (ln_composer l') as [c'|]; [|discriminate]. injection Hc as <-.
    exact (plain_composer_ok e c' (A6 c' eq_refl)).
Qed.
Lemma env_round_twice : forall e, env_ok e -> bind (env_copy e) env_copy = env_copy e.
Proof.
  intros e H. unfold env_copy. rewrite env_round by exact H. cbn [bind]. rewrite env_round by (apply plain_env_ok; exact H). rewrite plain_env_plain. reflexivity.
Qed.
Lemma env_round_exact : forall e, env_ok e -> (forall n l, In (n, l) (en_lines e) -> ln_composer l = None) -> env_copy e = Done e.
Proof.
  intros e H Hc. unfold env_copy. rewrite env_round by exact H. f_equal. unfold plain_env. destruct e as [a b c d m ls ps]. cbn in *. f_equal.
  clear H. induction ls as [|[n l] ls IH]; [reflexivity|]. cbn. rewrite IH by (intros; eapply Hc; right; eassumption).
  assert (E := Hc n l (or_introl eq_refl)). destruct l as [nm cfg ex co comp bs r m']. cbn in E. subst comp. reflexivity.
Qed.

(** ** A dictionary that was loaded once *)
Lemma on_key_id : forall k f d, (forall v, In (k, v) d -> f v = v) -> on_key k f (JObj d) = JObj d.
Proof.
  intros k f d H. unfold on_key. f_equal. induction d as [|[k' v] d IH]; [reflexivity|]. cbn [map fst snd].
  rewrite IH by (intros; apply H; right; assumption). destruct (String.eqb_spec k k'); [|reflexivity]. subst. rewrite H by (left; reflexivity). reflexivity.
Qed.
Lemma reload_no_functions : forall e, va_funcs (en_vars e) = [] -> dict_after_load (env_to_dict e) = env_to_dict e.
Proof.
  intros e H. unfold dict_after_load, env_to_dict, vars_to_dict. rewrite H. destruct (en_ref e), (en_bb e); reflexivity.
Qed.
Lemma read_dict_fails : forall A (f : json -> option A) l, l <> [] -> (forall n x, In (n, x) l -> f x = None) -> read_dict f (JObj l) = None.
Proof. intros A f [|[n x] l] H1 H2; [congruence|]. unfold read_dict, named; cbn. rewrite (H2 n x) by (left; reflexivity). reflexivity. Qed.
Lemma get_pop : forall A k (d : list (string * A)), get k (pop k d) = None.
Proof.
  intros. apply get_none. unfold keys, pop. intro H. apply in_map_iff in H. destruct H as [[k' v] [<- H]]. apply filter_In in H.
  destruct H as [_ H]. cbn in H. rewrite String.eqb_refl in H. discriminate.
Qed.
Lemma reload_functions : forall e, env_ok e -> va_funcs (en_vars e) <> [] -> env_from_dict (dict_after_load (env_to_dict e)) = Failed.
Proof.
  intros e (H1 & H2 & _) H. unfold env_from_dict, read_opt.
  set (d := dict_after_load (env_to_dict e)).
  assert (K1 : get "elements" d = Some (dict_of element_to_dict (en_elements e))).
  { subst d. unfold dict_after_load, env_to_dict. destruct (en_ref e), (en_bb e); reflexivity. }
  assert (K2 : get "particles" d = Some (dict_of particle_to_dict (en_particles e))).
  { subst d. unfold dict_after_load, env_to_dict. destruct (en_ref e), (en_bb e); reflexivity. }
  assert (K3 : get "particle_ref" d = option_map ref_to_dict (en_ref e)).
  { subst d. unfold dict_after_load, env_to_dict. destruct (en_ref e), (en_bb e); reflexivity. }
  assert (K4 : get "_var_manager" d = Some (JBlob (va_manager (en_vars e)))).
  { subst d. unfold dict_after_load, env_to_dict. destruct (en_ref e), (en_bb e); reflexivity. }
  assert (K5 : get "_var_management_data" d = Some (JObj [("var_values", JObj (blobs (va_values (en_vars e))));
      ("functions", JObj [("_funcs", pop_classes (dict_of func_to_dict (va_funcs (en_vars e))))])])).
  { subst d. unfold dict_after_load, env_to_dict. destruct (en_ref e), (en_bb e); reflexivity. }
  rewrite K1, K2, K3. rewrite read_dict_id by (intros n x Hx; apply element_round; exact (H1 n x Hx)).
  cbn [need bind]. rewrite particles_round. cbn [or_default need bind].
  assert (R : (match option_map ref_to_dict (en_ref e) with None => Some None | Some j => match ref_from_dict j with Some a => Some (Some a) | None => None end end) = Some (en_ref e)).
  { destruct (en_ref e) as [r|]; cbn [option_map]; [rewrite ref_round|]; reflexivity. }
  rewrite R; clear R. cbn [bind need]. unfold vars_from_dict. rewrite K4, K5. cbn [get String.eqb Ascii.eqb Bool.eqb].
  unfold read_blobs. cbn [as_obj]. rewrite all_blobs.
  unfold pop_classes, dict_of. rewrite read_dict_fails; [reflexivity| |].
  - intro E. apply H. apply map_eq_nil in E. apply map_eq_nil in E. exact E.
  - intros n x Hx. apply in_map_iff in Hx. destruct Hx as [[n1 x1] [E Hx]]. injection E as <- <-. cbn [snd].
    apply in_map_iff in Hx. destruct Hx as [[n2 f] [E Hx]]. injection E as <- <-. cbn [snd func_to_dict].
    unfold func_from_dict. cbn [as_obj]. rewrite get_pop. reflexivity.
Qed.

(** ** A line by itself *)
Lemma alone_round : forall e l, (forall n x, In (n, x) (en_elements e) -> element_ok x) -> NoDup (keys (en_particles e)) -> vars_ok (en_vars e) -> line_ok e l ->
  alone_from_dict (alone_to_dict e l) = Done (env_alone e, plain_line l).
Proof.
  intros e l H1 H2 H3 H4. unfold alone_from_dict, read_opt. set (d := alone_to_dict e l).
  assert (K1 : get "elements" d = Some (dict_of element_to_dict (en_elements e))).
  { subst d. unfold alone_to_dict, line_to_dict. destruct (ln_composer l), (ln_before_slicing l), (ln_ref l); reflexivity. }
  assert (K2 : get "env_particles" d = Some (dict_of particle_to_dict (en_particles e))).
  { subst d. unfold alone_to_dict, line_to_dict. destruct (ln_composer l), (ln_before_slicing l), (ln_ref l); reflexivity. }
  rewrite K1, K2. rewrite read_dict_id by (intros n x Hx; apply element_round; exact (H1 n x Hx)). cbn [need bind].
  rewrite (vars_round (en_vars e)); [|exact H3|].
  2:{ intros k Hk. subst d. unfold alone_to_dict, line_to_dict. destruct (ln_composer l), (ln_before_slicing l), (ln_ref l);
      repeat (destruct Hk as [<-|Hk]; [reflexivity|]); destruct Hk. }
  cbn [bind need]. rewrite particles_round. cbn [or_default need bind]. rewrite update_nil by exact H2.
  rewrite (line_round e l d None H4 (fun _ => eq_refl)).
  2:{ intros k Hk. subst d. unfold alone_to_dict, line_to_dict. destruct (ln_composer l), (ln_before_slicing l), (ln_ref l);
      repeat (destruct Hk as [<-|Hk]; [reflexivity|]); destruct Hk. }
  reflexivity.
Qed.
(** A deep copy *)
Lemma copy_round : forall e l nn, vars_ok (en_vars e) -> line_ok e l -> ln_names l = Names nn ->
  exists e' l', line_copy e l = Done (e', l') /\
    en_elements e' = en_elements e /\ en_vars e' = en_vars e /\ en_lines e' = [] /\
    ln_names l' = ln_names l /\ ln_config l' = ln_config l /\ ln_extra l' = ln_extra l /\ ln_compose l' = false /\ ln_ref l' = ln_ref l /\ ln_metadata l' = ln_metadata l /\
    (forall r, ln_ref l = Some r -> particle_of e' r = particle_of e r).
Proof.
  intros e l nn Hv (H1 & _ & H3 & H4 & [more H5] & H6 & H7) Hn. unfold line_copy. rewrite (vars_round (en_vars e) _ Hv) by reflexivity. cbn [need bind].
  assert (exists ps, (match ln_ref l with Some (RefName n) => bind (need (get n (en_particles e))) (fun p => Done [(n, p)]) | _ => Done [] end) = Done ps /\
     (forall r, ln_ref l = Some r -> particle_of (mkEnv (en_elements e) None (en_vars e) None "{}" [] ps) r = particle_of e r)) as [ps [E P]].
  { destruct (ln_ref l) as [[n|p]|] eqn:R.
    - destruct (H7 _ eq_refl) as [p [Hp _]]. cbn in Hp. rewrite Hp. cbn. exists [(n, p)]. split; [reflexivity|].
      intros r E. injection E as <-. cbn. rewrite String.eqb_refl. symmetry; exact Hp.
    - exists []. split; [reflexivity|]. intros r E. injection E as <-. reflexivity.
    - exists []. split; [reflexivity|]. discriminate. }
  rewrite E. cbn [bind]. do 2 eexists. split; [reflexivity|]. cbn. rewrite Hn. rewrite update_nil by exact H3. rewrite (update_over _ _ default_extra more) by assumption.
  cbn [all_names]. repeat split; try reflexivity. exact P.
Qed.

(** ** Strengths *)
Lemma clear_keep : forall l, clear l -> forallb tiny l = true -> forall i, nth i l 0%Q = 0%Q.
Proof.
  intros l [[x [Hx Hl]]|H] Ht i.
  - rewrite forallb_forall in Ht. specialize (Ht x Hx). unfold tiny in Ht. apply Qle_bool_iff in Ht. exfalso. exact (Qlt_not_le _ _ Hl Ht).
  - destruct (Nat.lt_ge_cases i (List.length l)) as [L|L]; [apply H; apply nth_In; exact L|apply nth_overflow; exact L].
Qed.
Lemma nth_pad : forall l n i, nth i (l ++ repeat 0%Q n)%list 0%Q = nth i l 0%Q.
Proof.
  intros l n i. destruct (Nat.lt_ge_cases i (List.length l)) as [L|L]; [apply app_nth1; exact L|].
  rewrite app_nth2 by exact L. rewrite (nth_overflow l) by exact L. destruct (Nat.lt_ge_cases (i - List.length l) n) as [M|M].
  - apply nth_repeat.
  - apply nth_overflow. rewrite repeat_length. exact M.
Qed.
Lemma nth_zeros : forall n i, nth i (repeat 0%Q n) 0%Q = 0%Q.
Proof. intros n i. change (repeat 0%Q n) with ([] ++ repeat 0%Q n)%list. rewrite nth_pad. destruct i; reflexivity. Qed.
Lemma multipole_strengths : forall m, clear (mp_knl m) -> clear (mp_ksl m) ->
  let m' := multipole_init (multipole_to_dict m) in
  (forall i, nth_strength (mp_knl m') i = nth_strength (mp_knl m) i) /\ (forall i, nth_strength (mp_ksl m') i = nth_strength (mp_ksl m) i).
Proof.
  intros [o k s] Hk Hs; cbn in Hk, Hs. unfold multipole_init, multipole_to_dict, nth_strength. cbn [mp_order mp_knl mp_ksl md_order md_knl md_ksl].
  split; intros i.
  - destruct (forallb tiny k) eqn:T; cbn [md_knl]; [|apply nth_pad].
    rewrite (clear_keep k Hk T). apply nth_zeros.
  - destruct (forallb tiny s) eqn:T; cbn [md_ksl]; [|apply nth_pad].
    rewrite (clear_keep s Hs T). apply nth_zeros.
Qed.
(** The same object if it has at least the default order *)
Lemma multipole_exact : forall m, (5 <= mp_order m)%nat -> List.length (mp_knl m) = S (mp_order m) -> List.length (mp_ksl m) = S (mp_order m) ->
  clear (mp_knl m) -> clear (mp_ksl m) -> multipole_init (multipole_to_dict m) = m.
Proof.
  intros m Ho Lk Ls Hk Hs. destruct (multipole_strengths m Hk Hs) as [Ek Es].
  assert (Len : mp_order (multipole_init (multipole_to_dict m)) = mp_order m /\ List.length (mp_knl (multipole_init (multipole_to_dict m))) = S (mp_order m) /\
                List.length (mp_ksl (multipole_init (multipole_to_dict m))) = S (mp_order m)).
  { destruct m as [o k s]. cbn in Ho, Lk, Ls. destruct o as [|o]; [lia|].
    unfold multipole_init, multipole_to_dict. cbn [mp_order mp_knl mp_ksl md_order md_knl md_ksl Nat.eqb].
    destruct (forallb tiny k), (forallb tiny s); cbn [md_order md_knl md_ksl]; rewrite ?app_length, ?repeat_length, ?Lk, ?Ls; repeat split; lia. }
  destruct Len as (L1 & L2 & L3). destruct (multipole_init (multipole_to_dict m)) as [o' k' s'], m as [o k s]. cbn in *. subst o'. f_equal.
  - apply (nth_ext _ _ 0%Q 0%Q); [congruence|]. intros i _. apply Ek.
  - apply (nth_ext _ _ 0%Q 0%Q); [congruence|]. intros i _. apply Es.
Qed.
Lemma multipole_order : forall m, mp_order m <> 0%nat -> List.length (mp_knl m) = S (mp_order m) -> List.length (mp_ksl m) = S (mp_order m) ->
  ((forall x, In x (mp_knl m ++ mp_ksl m) -> x = 0%Q) -> mp_order (multipole_init (multipole_to_dict m)) = mp_order m) /\
  ((exists x, In x (mp_knl m ++ mp_ksl m) /\ (1 # 10000000000000000 < Qabs x)%Q) ->
   mp_order (multipole_init (multipole_to_dict m)) = Nat.max 5 (mp_order m)).
Proof.
  intros [o k s] Ho Lk Ls. cbn [mp_order mp_knl mp_ksl] in *. destruct o as [|o]; [lia|].
  assert (forall l, (forall x, In x l -> x = 0%Q) -> forallb tiny l = true) as Z0.
  { intros l H. apply forallb_forall. intros x Hx. rewrite (H x Hx). reflexivity. }
  assert (forall l x, In x l -> (1 # 10000000000000000 < Qabs x)%Q -> forallb tiny l = false) as Z1.
  { intros l x Hx H. destruct (forallb tiny l) eqn:E; [|reflexivity]. rewrite forallb_forall in E.
    specialize (E x Hx). unfold tiny in E. apply Qle_bool_iff in E. exfalso. apply (Qlt_not_le _ _ H E). }
  unfold multipole_init, multipole_to_dict. cbn [mp_order mp_knl mp_ksl md_order md_knl md_ksl Nat.eqb].
  split.
  - intro H. rewrite (Z0 k), (Z0 s) by (intros x Hx; apply H; apply in_or_app; tauto).
    cbn [md_order md_knl md_ksl]. lia.
  - intros (x & Hx & H). apply in_app_or in Hx.
    destruct (forallb tiny k) eqn:Ek, (forallb tiny s) eqn:Es.
    + exfalso. destruct Hx as [Hx|Hx]; rewrite (Z1 _ _ Hx H) in *; discriminate.
    + cbn [md_order md_knl md_ksl]. rewrite Ls. lia.
    + cbn [md_order md_knl md_ksl]. rewrite Lk. lia.
    + cbn [md_order md_knl md_ksl]. rewrite Lk, Ls. lia.
Qed.

(** ** Lines in compose mode *)
Lemma compose_ref_fails : forall e l r p, ln_compose l = true -> ln_names l = Composing -> ln_ref l = Some r -> particle_of e r = Some p -> pt_tsim p = TZero ->
  ~ In "_" (keys (en_elements e)) ->
  (forall n x, In (n, x) (en_elements e) -> element_ok x) -> NoDup (keys (en_particles e)) -> vars_ok (en_vars e) ->
  alone_from_dict (alone_to_dict e l) = Failed.
Proof.
  intros e l r p H1 H2 H3 H4 H5 H6 H7 H8 H9. unfold alone_from_dict, read_opt. set (d := alone_to_dict e l).
  assert (K1 : get "elements" d = Some (dict_of element_to_dict (en_elements e))).
  { subst d. unfold alone_to_dict, line_to_dict. destruct (ln_composer l), (ln_before_slicing l), (ln_ref l); reflexivity. }
  assert (K2 : get "env_particles" d = Some (dict_of particle_to_dict (en_particles e))).
  { subst d. unfold alone_to_dict, line_to_dict. destruct (ln_composer l), (ln_before_slicing l), (ln_ref l); reflexivity. }
  assert (K3 : get "element_names" d = Some (JStr "__COMPOSE__")).
  { subst d. unfold alone_to_dict, line_to_dict. rewrite H2. destruct (ln_composer l), (ln_before_slicing l), (ln_ref l); reflexivity. }
  assert (K4 : get "particle_ref" d = Some (ref_to_dict r)).
  { subst d. unfold alone_to_dict, line_to_dict. rewrite H3. destruct (ln_composer l), (ln_before_slicing l); reflexivity. }
  assert (K5 : get "__class__" d = Some (JStr "Line")).
  { subst d. unfold alone_to_dict, line_to_dict. destruct (ln_composer l), (ln_before_slicing l), (ln_ref l); reflexivity. }
  rewrite K1, K2. rewrite read_dict_id by (intros n x Hx; apply element_round; exact (H7 n x Hx)). cbn [need bind].
  rewrite (vars_round (en_vars e)); [|exact H9|].
  2:{ intros k Hk. subst d. unfold alone_to_dict, line_to_dict. destruct (ln_composer l), (ln_before_slicing l), (ln_ref l);
      repeat (destruct Hk as [<-|Hk]; [reflexivity|]); destruct Hk. }
  cbn [bind need]. rewrite particles_round. cbn [or_default need bind]. rewrite update_nil by exact H8.
  unfold line_from_dict, read_opt. rewrite K3, K4, K5. cbn [String.eqb Ascii.eqb Bool.eqb bind need read_names]. rewrite ref_round. cbn [bind need].
  assert (S0 : set_ref (fun n => has n (en_elements e)) (en_particles e) (letters "__COMPOSE__") r = None).
  { unfold set_ref. destruct p as [pd pt]. cbn in H5. subst pt.
    assert (F : forallb (fun n => has n (en_elements e)) (letters "__COMPOSE__") = false).
    { cbn [letters forallb]. rewrite has_false by exact H6. reflexivity. }
    destruct r as [n|q]; cbn in H4.
    - rewrite H4. cbn [pt_tsim]. rewrite F. reflexivity.
    - injection H4 as ->. cbn [pt_tsim]. rewrite F. reflexivity. }
  rewrite S0. reflexivity.
Qed.
Lemma compose_copy : forall e l e' l', ln_names l = Composing -> line_copy e l = Done (e', l') ->
  ln_names l' = Names ["_"; "_"; "C"; "O"; "M"; "P"; "O"; "S"; "E"; "_"; "_"] /\ ln_composer l' = None /\ ln_compose l' = false.
Proof.
  intros e l e' l' H E. unfold line_copy in E. rewrite H in E.
  destruct (vars_from_dict _); cbn [need bind] in E; [|discriminate].
  destruct (match ln_ref l with Some (RefName n) => _ | _ => _ end); cbn [bind] in E; try discriminate.
  injection E as <- <-. repeat split.
Qed.

(** Reversal of elements and lines *)
From Coq Require Import Reals Lra Lia List Bool String Arith.
From Verif.Model Require Import Reverse.
From Verif.Spec Require Import Reverse.
Import ListNotations.
Local Open Scope R_scope.
Local Open Scope string_scope.

Lemma change_field_at f key e k :
  e_field (change_field f key e) k = if String.eqb k key then option_map f (e_field e k) else e_field e k.
Proof.
  unfold change_field. destruct (e_field e key) as [v|] eqn:E.
  - cbn. destruct (String.eqb_spec k key) as [->|_]; [now rewrite E|reflexivity].
  - destruct (String.eqb_spec k key) as [->|_]; [now rewrite E|reflexivity].
Qed.
Lemma change_field_rest f key e :
  e_class (change_field f key e) = e_class e /\ e_knl (change_field f key e) = e_knl e /\
  e_ksl (change_field f key e) = e_ksl e.
Proof. unfold change_field. destruct (e_field e key); repeat split; reflexivity. Qed.

Definition or_else (a b : option R) : option R := match a with Some v => Some v | None => b end.
Lemma exchange_fields_at k1 k2 e k : k1 <> k2 ->
  e_field (exchange_fields k1 k2 e) k =
  if String.eqb k k1 then or_else (e_field e k2) (e_field e k)
  else if String.eqb k k2 then or_else (e_field e k1) (e_field e k) else e_field e k.
Proof.
  intros H. unfold exchange_fields, or_else.
  destruct (e_field e k1) as [v1|] eqn:E1, (e_field e k2) as [v2|] eqn:E2; cbn;
    destruct (String.eqb_spec k k1) as [E|N1]; try subst k; rewrite ?E1, ?E2; try reflexivity;
    try (apply String.eqb_neq in H; rewrite H; reflexivity);
    destruct (String.eqb_spec k k2) as [E|N2]; try subst k; rewrite ?E1, ?E2; try reflexivity; congruence.
Qed.
Lemma exchange_fields_rest k1 k2 e :
  e_class (exchange_fields k1 k2 e) = e_class e /\ e_knl (exchange_fields k1 k2 e) = e_knl e /\
  e_ksl (exchange_fields k1 k2 e) = e_ksl e.
Proof. unfold exchange_fields. destruct (e_field e k1), (e_field e k2); repeat split; reflexivity. Qed.

Lemma supported_spec e : existsb (String.eqb (e_class e)) supported = true <-> is_supported e.
Proof.
  unfold is_supported. rewrite existsb_exists. split.
  - intros (c & Hc & Ec). apply String.eqb_eq in Ec. now rewrite Ec.
  - intros H. exists (e_class e). split; [exact H|apply String.eqb_refl].
Qed.

(** The scalar attributes as a function *)
Definition field_after (pi : R) (e : elem) (k : string) : option R :=
  if existsb (String.eqb k) opposite_keys then option_map Ropp (e_field e k)
  else if String.eqb (e_class e) "CrabCavity" && String.eqb k "crab_voltage" then option_map Ropp (e_field e k)
  else if String.eqb k "phase" then option_map (fun phase => pi - phase) (e_field e k)
  else match other_edge k with Some o => or_else (e_field e o) (e_field e k) | None => e_field e k end.

Definition crab (e : elem) : elem :=
  if String.eqb (e_class e) "CrabCavity" then reverse_field "crab_voltage" e else e.
Lemma crab_at e k :
  e_field (crab e) k = if String.eqb (e_class e) "CrabCavity" && String.eqb k "crab_voltage"
                       then option_map Ropp (e_field e k) else e_field e k.
Proof.
  unfold crab, reverse_field. destruct (String.eqb (e_class e) "CrabCavity"); cbn [andb]; [apply change_field_at|reflexivity].
Qed.
Lemma crab_rest e : e_class (crab e) = e_class e /\ e_knl (crab e) = e_knl e /\ e_ksl (crab e) = e_ksl e.
Proof. unfold crab. destruct (String.eqb _ _); [apply change_field_rest|repeat split]. Qed.

Lemma reverse_element_eq pi e :
  reverse_element pi e =
  if existsb (String.eqb (e_class e)) supported then
    Some (exchange_fields "edge_entry_hgap" "edge_exit_hgap"
         (exchange_fields "edge_entry_fint" "edge_exit_fint"
         (exchange_fields "edge_entry_angle_fdown" "edge_exit_angle_fdown"
         (exchange_fields "edge_entry_angle" "edge_exit_angle"
         (exchange_fields "edge_entry_model" "edge_exit_model"
         (reverse_ksl (reverse_knl
         (change_field (fun phase => pi - phase) "phase" (reverse_field "lag" (crab
         (reverse_field "rot_s_rad" (reverse_field "ksi" (reverse_field "ks" (reverse_field "k3"
         (reverse_field "k2s" (reverse_field "k1" (reverse_field "k0s" e)))))))))))))))))
  else None.
Proof. reflexivity. Qed.

Ltac rest :=
  repeat match goal with
  | |- context [e_class (change_field ?f ?k ?e)] => rewrite (proj1 (change_field_rest f k e))
  | |- context [e_class (crab ?e)] => rewrite (proj1 (crab_rest e))
  | |- context [e_class (exchange_fields ?f ?k ?e)] => rewrite (proj1 (exchange_fields_rest f k e))
  | |- context [e_knl (change_field ?f ?k ?e)] => rewrite (proj1 (proj2 (change_field_rest f k e)))
  | |- context [e_knl (crab ?e)] => rewrite (proj1 (proj2 (crab_rest e)))
  | |- context [e_knl (exchange_fields ?f ?k ?e)] => rewrite (proj1 (proj2 (exchange_fields_rest f k e)))
  | |- context [e_ksl (change_field ?f ?k ?e)] => rewrite (proj2 (proj2 (change_field_rest f k e)))
  | |- context [e_ksl (crab ?e)] => rewrite (proj2 (proj2 (crab_rest e)))
  | |- context [e_ksl (exchange_fields ?f ?k ?e)] => rewrite (proj2 (proj2 (exchange_fields_rest f k e)))
  end.

Lemma change_eq f key e : e_field (change_field f key e) key = option_map f (e_field e key).
Proof. now rewrite change_field_at, String.eqb_refl. Qed.
Lemma change_neq f key e k : k <> key -> e_field (change_field f key e) k = e_field e k.
Proof. intros H. apply String.eqb_neq in H. now rewrite change_field_at, H. Qed.
Lemma exchange_1 k1 k2 e : k1 <> k2 ->
  e_field (exchange_fields k1 k2 e) k1 = or_else (e_field e k2) (e_field e k1).
Proof. intros H. now rewrite exchange_fields_at, String.eqb_refl. Qed.
Lemma exchange_2 k1 k2 e : k1 <> k2 ->
  e_field (exchange_fields k1 k2 e) k2 = or_else (e_field e k1) (e_field e k2).
Proof.
  intros H. rewrite exchange_fields_at, String.eqb_refl by exact H. apply not_eq_sym, String.eqb_neq in H. now rewrite H.
Qed.
Lemma exchange_neq k1 k2 e k : k1 <> k2 -> k <> k1 -> k <> k2 -> e_field (exchange_fields k1 k2 e) k = e_field e k.
Proof.
  intros H A B. rewrite exchange_fields_at by exact H. apply String.eqb_neq in A, B. now rewrite A, B.
Qed.
Lemma arrays_at e k : e_field (reverse_ksl (reverse_knl e)) k = e_field e k.
Proof. reflexivity. Qed.
Lemma crab_neq e k : k <> "crab_voltage" -> e_field (crab e) k = e_field e k.
Proof. intros H. apply String.eqb_neq in H. now rewrite crab_at, H, andb_false_r. Qed.

Ltac differ := solve [discriminate | assumption].
Ltac look :=
  repeat first
    [ rewrite exchange_neq by differ | rewrite exchange_1 by differ | rewrite exchange_2 by differ
    | rewrite arrays_at | rewrite change_eq | rewrite change_neq by differ | rewrite crab_neq by differ ].

Lemma reverse_element_spec pi e e' : reverse_element pi e = Some e' ->
  e_class e' = e_class e /\ (forall k, e_field e' k = field_after pi e k) /\
  e_knl e' = option_map (flip_from false) (e_knl e) /\ e_ksl e' = option_map (flip_from true) (e_ksl e).
Proof.
  rewrite reverse_element_eq. destruct (existsb _ supported); [|discriminate]. intros H.
  match type of H with Some ?t = _ => assert (E : e' = t) by congruence end. clear H. subst e'.
  unfold reverse_field. repeat split.
  - rest. cbn [e_class reverse_ksl reverse_knl]. now rest.
  - intros k.
    Ltac one k s := destruct (String.eqb_spec k s) as [->|];
      [look; unfold field_after; cbn; rewrite ?andb_false_r; reflexivity|].
    one k "k0s". one k "k1". one k "k2s". one k "k3". one k "ks". one k "ksi". one k "rot_s_rad". one k "lag".
    destruct (String.eqb_spec k "crab_voltage") as [->|].
    { look. rewrite crab_at. look. rest. unfold field_after. cbn. now destruct (String.eqb _ "CrabCavity"). }
    one k "phase".
    one k "edge_entry_model". one k "edge_exit_model". one k "edge_entry_angle". one k "edge_exit_angle".
    one k "edge_entry_angle_fdown". one k "edge_exit_angle_fdown". one k "edge_entry_fint". one k "edge_exit_fint".
    one k "edge_entry_hgap". one k "edge_exit_hgap".
    look. unfold field_after, other_edge, edge_keys, opposite_keys. cbn [existsb find fst snd].
    repeat match goal with H : k <> ?s |- _ => apply String.eqb_neq in H; rewrite H; clear H end.
    rewrite ?andb_false_r. reflexivity.
  - rest. cbn [e_knl reverse_ksl reverse_knl]. now rest.
  - rest. cbn [e_ksl reverse_ksl reverse_knl]. now rest.
Qed.

Lemma defined pi e : is_supported e <-> exists e', reverse_element pi e = Some e'.
Proof.
  rewrite <- supported_spec, reverse_element_eq. destruct (existsb _ supported).
  - split; [eauto|reflexivity].
  - split; [discriminate|intros (e' & H); discriminate].
Qed.

Lemma opposite_after pi e k : is_opposite e k -> field_after pi e k = option_map Ropp (e_field e k).
Proof.
  intros [H|(Hc & ->)].
  - assert (E : existsb (String.eqb k) opposite_keys = true)
      by (apply existsb_exists; exists k; split; [exact H|apply String.eqb_refl]).
    unfold field_after. now rewrite E.
  - unfold field_after. now rewrite Hc.
Qed.
Lemma opposite_cases e k : is_opposite e k \/ ~ is_opposite e k.
Proof.
  unfold is_opposite. destruct (in_dec string_dec k opposite_keys); [now left; left|].
  destruct (string_dec (e_class e) "CrabCavity"); [|tauto]. destruct (string_dec k "crab_voltage"); tauto.
Qed.
Lemma not_opposite e k : ~ is_opposite e k ->
  existsb (String.eqb k) opposite_keys = false /\
  String.eqb (e_class e) "CrabCavity" && String.eqb k "crab_voltage" = false.
Proof.
  intros N. split.
  - destruct (existsb _ _) eqn:E; [|reflexivity]. apply existsb_exists in E. destruct E as (c & Hc & Ec).
    apply String.eqb_eq in Ec. subst c. destruct N. now left.
  - destruct (String.eqb_spec (e_class e) "CrabCavity"); [|reflexivity].
    destruct (String.eqb_spec k "crab_voltage"); [|reflexivity]. destruct N. right. tauto.
Qed.
Lemma edges_after pi e k o : ~ is_opposite e k -> k <> "phase" -> other_edge k = Some o ->
  field_after pi e k = or_else (e_field e o) (e_field e k).
Proof.
  intros N Hp Ho. unfold field_after. destruct (not_opposite e k N) as (-> & ->).
  apply String.eqb_neq in Hp. now rewrite Hp, Ho.
Qed.
Lemma others_after pi e k : ~ is_opposite e k -> k <> "phase" -> other_edge k = None ->
  field_after pi e k = e_field e k.
Proof.
  intros N Hp Ho. unfold field_after. destruct (not_opposite e k N) as (-> & ->).
  apply String.eqb_neq in Hp. now rewrite Hp, Ho.
Qed.

Lemma other_edge_cases k o : other_edge k = Some o ->
  (exists p, In p edge_keys /\ ((k = fst p /\ o = snd p) \/ (k = snd p /\ o = fst p))) /\
  k <> "phase" /\ ~ In k opposite_keys /\ k <> "crab_voltage" /\ other_edge o = Some k.
Proof.
  unfold other_edge. destruct (find (fun p => String.eqb k (fst p)) edge_keys) as [p|] eqn:E.
  - intros H. assert (Ho : o = snd p) by congruence. clear H. subst o.
    apply find_some in E. destruct E as (Hp & Ek). apply String.eqb_eq in Ek. subst k.
    split; [exists p; tauto|]. unfold edge_keys in Hp.
    repeat (destruct Hp as [<-|Hp]; [repeat split; cbn; try discriminate; intuition discriminate|]). destruct Hp.
  - clear E. destruct (find (fun p => String.eqb k (snd p)) edge_keys) as [p|] eqn:E; [|discriminate].
    intros H. assert (Ho : o = fst p) by congruence. clear H. subst o.
    apply find_some in E. destruct E as (Hp & Ek). apply String.eqb_eq in Ek. subst k.
    split; [exists p; tauto|]. unfold edge_keys in Hp.
    repeat (destruct Hp as [<-|Hp]; [repeat split; cbn; try discriminate; intuition discriminate|]). destruct Hp.
Qed.

(** An attribute of an edge takes the value of the other edge. *)
Lemma exchanged pi e k o : two_edges e -> other_edge k = Some o -> field_after pi e k = e_field e o.
Proof.
  intros He Ho. destruct (other_edge_cases k o Ho) as ((p & Hp & Hk) & H1 & H2 & H3 & _).
  rewrite (edges_after pi e k o).
  - specialize (He p Hp). unfold or_else. destruct (e_field e o) eqn:E; [reflexivity|].
    destruct Hk as [(-> & ->)|(-> & ->)]; tauto.
  - intros [?|(_ & ?)]; tauto.
  - exact H1.
  - exact Ho.
Qed.

Lemma flip_twice l : forall b, flip_from b (flip_from b l) = l.
Proof.
  induction l as [|a l IH]; intros b; [reflexivity|]. cbn. rewrite IH. destruct b; [f_equal; ring|reflexivity].
Qed.
Lemma flip_length l : forall b, List.length (flip_from b l) = List.length l.
Proof. induction l as [|a l IH]; intros b; cbn; [reflexivity|now rewrite IH]. Qed.
Lemma flip_nth l : forall b n, nth n (flip_from b l) 0 = (if xorb b (Nat.odd n) then -1 else 1) * nth n l 0.
Proof.
  induction l as [|a l IH]; intros b n.
  - destruct n; cbn [flip_from nth]; ring.
  - destruct n as [|n]; cbn [flip_from nth].
    + destruct b; cbn; ring.
    + rewrite IH. rewrite Nat.odd_succ, <- Nat.negb_odd. destruct b, (Nat.odd n); cbn; ring.
Qed.

Lemma supported_same e e' : e_class e' = e_class e -> is_supported e -> is_supported e'.
Proof. unfold is_supported. congruence. Qed.
Lemma well_formed_after pi e e' : reverse_element pi e = Some e' -> well_formed e -> well_formed e'.
Proof.
  intros H (Hs & He). destruct (reverse_element_spec pi e e' H) as (Hc & Hf & _).
  split; [now apply (supported_same e)|]. intros p Hp. rewrite !Hf.
  assert (Ho : other_edge (fst p) = Some (snd p) /\ other_edge (snd p) = Some (fst p)).
  { unfold edge_keys in Hp. repeat (destruct Hp as [<-|Hp]; [split; reflexivity|]). destruct Hp. }
  rewrite (exchanged pi e _ _ He (proj1 Ho)), (exchanged pi e _ _ He (proj2 Ho)). specialize (He p Hp). tauto.
Qed.

Lemma after_twice pi e e' k : two_edges e ->
  (e_class e' = e_class e) -> (forall k, e_field e' k = field_after pi e k) -> two_edges e' ->
  field_after pi e' k = e_field e k.
Proof.
  intros He Hc Hf He'. destruct (opposite_cases e k) as [H|H].
  - assert (H' : is_opposite e' k) by (unfold is_opposite in *; now rewrite Hc).
    rewrite (opposite_after pi e' k H'), Hf, (opposite_after pi e k H).
    destruct (e_field e k); cbn; [f_equal; ring|reflexivity].
  - assert (H' : ~ is_opposite e' k) by (unfold is_opposite in *; now rewrite Hc).
    destruct (string_dec k "phase") as [->|Hp].
    + unfold field_after at 1. rewrite Hf. destruct (not_opposite e' "phase" H') as (_ & ->).
      cbn. rewrite andb_false_r. destruct (e_field e "phase"); cbn; [f_equal; ring|reflexivity].
    + destruct (other_edge k) as [o|] eqn:Ho.
      * destruct (other_edge_cases k o Ho) as (_ & _ & _ & _ & Hk).
        rewrite (exchanged pi e' k o He' Ho), Hf, (exchanged pi e o k He Hk). reflexivity.
      * now rewrite (others_after pi e' k H' Hp Ho), Hf, (others_after pi e k H Hp Ho).
Qed.

Lemma twice pi e : well_formed e ->
  exists e' e'', reverse_element pi e = Some e' /\ reverse_element pi e' = Some e'' /\ same_elem e'' e.
Proof.
  intros Hw. destruct (proj1 (defined pi e) (proj1 Hw)) as (e' & He').
  pose proof (well_formed_after pi e e' He' Hw) as Hw'.
  destruct (proj1 (defined pi e') (proj1 Hw')) as (e'' & He'').
  exists e', e''. split; [exact He'|]. split; [exact He''|].
  destruct (reverse_element_spec pi e e' He') as (C1 & F1 & N1 & S1).
  destruct (reverse_element_spec pi e' e'' He'') as (C2 & F2 & N2 & S2).
  repeat split.
  - congruence.
  - intros k. rewrite F2. apply after_twice; [apply Hw|exact C1|exact F1|apply Hw'].
  - rewrite N2, N1. destruct (e_knl e); cbn; [now rewrite flip_twice|reflexivity].
  - rewrite S2, S1. destruct (e_ksl e); cbn; [now rewrite flip_twice|reflexivity].
Qed.

Definition sign (n : nat) : R := if Nat.odd n then -1 else 1.
Lemma component_flip b l n :
  component (option_map (flip_from b) l) n = (if xorb b (Nat.odd n) then -1 else 1) * component l n.
Proof. destruct l as [l|]; cbn [option_map component]; [apply flip_nth|ring]. Qed.

Lemma strengths pi e e' n : reverse_element pi e = Some e' ->
  kn e' n = (if Nat.odd n then -1 else 1) * kn e n /\ ks e' n = (if Nat.odd n then 1 else -1) * ks e n.
Proof.
  intros H. destruct (reverse_element_spec pi e e' H) as (_ & F & N & S). unfold kn, ks.
  rewrite N, S, !component_flip, !F.
  assert (V : value (field_after pi e "length") = value (e_field e "length")).
  { unfold field_after. cbn. now rewrite andb_false_r. }
  rewrite V. clear V. unfold per_meter.
  destruct n as [|[|[|[|n]]]]; cbn [key]; rewrite ?F; unfold field_after; cbn [existsb opposite_keys];
    cbn; rewrite ?andb_false_r.
  1-4: split; repeat match goal with |- context [e_field ?a ?k] => destruct (e_field a k); cbn end; ring.
  change (Nat.odd (Datatypes.S (Datatypes.S (Datatypes.S (Datatypes.S n))))) with (Nat.odd n).
  destruct (Nat.odd n); cbn; split; ring.
Qed.

(** * Lines *)
Lemma reverse_names_out pi names : forall d d' m,
  reverse_names pi names d = Some d' -> ~ In m names -> d' m = d m.
Proof.
  induction names as [|n names IH]; intros d d' m H N; cbn in H; [congruence|].
  destruct (d n) as [e|]; [|discriminate]. destruct (reverse_element pi e) as [e'|]; [|discriminate].
  rewrite (IH _ _ m H) by (intros X; apply N; now right). unfold set_elem.
  destruct (String.eqb_spec m n) as [->|]; [destruct N; now left|reflexivity].
Qed.

Lemma reverse_names_once pi names : forall d, NoDup names -> known d names ->
  exists d', reverse_names pi names d = Some d' /\
    (forall n, In n names -> exists e e', d n = Some e /\ reverse_element pi e = Some e' /\ d' n = Some e').
Proof.
  induction names as [|n names IH]; intros d ND K.
  - exists d. split; [reflexivity|intros n []].
  - inversion ND as [|? ? N1 N2]; subst. destruct (K n (or_introl eq_refl)) as (e & Ee & We).
    destruct (proj1 (defined pi e) (proj1 We)) as (e' & He').
    assert (other : forall m, In m names -> set_elem d n e' m = d m).
    { intros m Hm. unfold set_elem. destruct (String.eqb_spec m n) as [->|]; [contradiction|reflexivity]. }
    destruct (IH (set_elem d n e') N2) as (d' & H1 & H2).
    { intros m Hm. destruct (K m (or_intror Hm)) as (em & E1 & E2). exists em. now rewrite other. }
    exists d'. cbn. rewrite Ee, He'. split; [exact H1|].
    intros m [<-|Hm].
    + exists e, e'. split; [exact Ee|]. split; [exact He'|].
      rewrite (reverse_names_out pi names _ _ n H1 N1). unfold set_elem. now rewrite String.eqb_refl.
    + destruct (H2 m Hm) as (a & b & A & B & C). exists a, b. rewrite other in A by exact Hm. tauto.
Qed.

Lemma line_once pi d names : NoDup names -> known d names ->
  exists d', reverse_line pi d names = Some (d', rev names) /\
    (forall n, In n names -> exists e e', d n = Some e /\ reverse_element pi e = Some e' /\ d' n = Some e') /\
    (forall n, ~ In n names -> d' n = d n).
Proof.
  intros ND K. destruct (reverse_names_once pi names d ND K) as (d' & H1 & H2).
  exists d'. unfold reverse_line. rewrite H1. repeat split; [exact H2|].
  intros n. now apply reverse_names_out with (1 := H1).
Qed.

Lemma line_twice pi d names : NoDup names -> known d names ->
  exists d' d'', reverse_line pi d names = Some (d', rev names) /\
    reverse_line pi d' (rev names) = Some (d'', names) /\
    (forall n, In n names -> exists e e'', d n = Some e /\ d'' n = Some e'' /\ same_elem e'' e) /\
    (forall n, ~ In n names -> d'' n = d n).
Proof.
  intros ND K. destruct (line_once pi d names ND K) as (d' & H1 & H2 & H3).
  assert (K' : known d' (rev names)).
  { intros n Hn. apply in_rev in Hn. destruct (H2 n Hn) as (e & e' & A & B & C). exists e'. split; [exact C|].
    apply (well_formed_after pi e e' B). destruct (K n Hn) as (x & X1 & X2). congruence. }
  destruct (line_once pi d' (rev names) (NoDup_rev ND) K') as (d'' & G1 & G2 & G3).
  exists d', d''. rewrite rev_involutive in G1. split; [exact H1|]. split; [exact G1|]. split.
  - intros n Hn. destruct (H2 n Hn) as (e & e' & A & B & C).
    destruct (G2 n (proj1 (in_rev names n) Hn)) as (f & f' & D & E & F).
    exists e, f'. split; [exact A|]. split; [exact F|].
    assert (f = e') by congruence. subst f.
    destruct (K n Hn) as (x & X1 & X2). assert (x = e) by congruence. subst x.
    destruct (twice pi e X2) as (a & b & P & Q & S). assert (a = e') by congruence. subst a.
    assert (b = f') by congruence. now subst b.
  - intros n Hn. rewrite G3, H3; [reflexivity|exact Hn|]. now rewrite <- in_rev.
Qed.

Lemma edges pi e e' a b : reverse_element pi e = Some e' -> two_edges e -> In (a, b) edge_keys ->
  e_field e' a = e_field e b /\ e_field e' b = e_field e a.
Proof.
  intros H He Hk. destruct (reverse_element_spec pi e e' H) as (_ & F & _). rewrite !F.
  assert (Ho : other_edge a = Some b /\ other_edge b = Some a).
  { unfold edge_keys in Hk. repeat (destruct Hk as [Hk|Hk]; [injection Hk as <- <-; split; reflexivity|]). destruct Hk. }
  split; apply exchanged; tauto.
Qed.
Lemma kept pi e e' k : reverse_element pi e = Some e' ->
  ~ is_opposite e k -> k <> "phase" -> other_edge k = None ->
  e_class e' = e_class e /\ e_field e' k = e_field e k.
Proof.
  intros H N P O. destruct (reverse_element_spec pi e e' H) as (C & F & _). split; [exact C|].
  rewrite F. now apply others_after.
Qed.
Lemma opposites pi e e' : reverse_element pi e = Some e' ->
  (forall k, is_opposite e k -> e_field e' k = option_map Ropp (e_field e k)) /\
  e_field e' "phase" = option_map (fun phase => pi - phase) (e_field e "phase").
Proof.
  intros H. destruct (reverse_element_spec pi e e' H) as (_ & F & _). split.
  - intros k Hk. rewrite F. now apply opposite_after.
  - rewrite F. unfold field_after. cbn. now rewrite andb_false_r.
Qed.

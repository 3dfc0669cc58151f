(** C26, C27, C30, C33, C34 and C35: editing of lines. *)
From Coq Require Import ZArith QArith Qabs List Bool String Lqa.
From Coq Require Qcanon.
From Verif.Model Require Import Line Slicing LineEdit History.
From Verif.Spec Require Import Line LineEdit History.
From Verif.Model Require Composer.
From Verif.Spec Require Composer.
From Verif.Proofs Require Remove LineAlgebra Repeated Filter Simplify History LineEditCases.
Import ListNotations.
Local Open Scope Q_scope.

(** * C26 *)
Theorem C26_remove v rows bt sel tol v' names' L : cache_ok v -> line_length v (map snd rows) = Some L ->
  remove v rows bt sel tol = Some (v', names') ->
  keeps v v' /\ cache_ok v' /\ (edge_names_ok v -> edge_names_ok v') /\
  exists chunks, names' = List.concat chunks /\ List.length chunks = List.length rows /\
    (forall i n, nth_error (map snd rows) i = Some n ->
       (~ selected bt sel (map snd rows) i -> nth_error chunks i = Some [n]) /\
       (selected bt sel (map snd rows) i -> long v tol n -> exists d l l', nth_error chunks i = Some [d] /\ lookup v d = None /\
          lookup v' d = Some (EOwn CDrift l' 0) /\ s_length v n = Some l /\ l' == l) /\
       (selected bt sel (map snd rows) i -> ~ long v tol n -> nth_error chunks i = Some [])) /\
    (forall e, 0 <= e -> (forall i n l, nth_error (map snd rows) i = Some n -> selected bt sel (map snd rows) i -> s_length v n = Some l ->
        ~ long v tol n -> Qabs l <= e) -> same_positions v v' (map snd rows) chunks e).
Proof. exact (Verif.Proofs.Remove.remove_ok v rows bt sel tol v' names' L). Qed.
Print Assumptions C26_remove.

Theorem C26_remove_defined v rows bt sel tol L : line_length v (map snd rows) = Some L ->
  (remove v rows bt sel tol = None <-> forall i, ~ selected bt sel (map snd rows) i).
Proof. exact (Verif.Proofs.Remove.remove_fails v rows bt sel tol L). Qed.
Print Assumptions C26_remove_defined.

Theorem C26_replace v rows bt sel new tol names' L : line_length v (map snd rows) = Some L -> 0 <= tol ->
  replace v rows bt sel new tol = Some names' ->
  List.length names' = List.length rows /\
  (forall i n, nth_error (map snd rows) i = Some n ->
     (selected bt sel (map snd rows) i -> nth_error names' i = Some new) /\ (~ selected bt sel (map snd rows) i -> nth_error names' i = Some n)) /\
  (forall e, 0 <= e -> (forall i n l l', nth_error (map snd rows) i = Some n -> selected bt sel (map snd rows) i -> s_length v n = Some l -> s_length v new = Some l' ->
     Qabs (l' - l) <= e) -> same_positions v v (map snd rows) (map (fun x => [x]) names') e).
Proof. exact (Verif.Proofs.Remove.replace_ok v rows bt sel new tol names' L). Qed.
Print Assumptions C26_replace.

Theorem C26_replace_defined v rows bt sel new tol L : line_length v (map snd rows) = Some L ->
  (replace v rows bt sel new tol <> None <->
   (exists i, selected bt sel (map snd rows) i) /\
   exists l', s_length v new = Some l' /\ forall i, selected bt sel (map snd rows) i ->
     exists n l, nth_error (map snd rows) i = Some n /\ s_length v n = Some l /\ Qabs (l - l') <= tol).
Proof. exact (Verif.Proofs.Remove.replace_defined v rows bt sel new tol L). Qed.
Print Assumptions C26_replace_defined.

(** Thick elements up to the tolerance are dropped, and the line becomes shorter. *)
Theorem C26_short_element_refuted : exists v rows v' names' L L', line_length v (map snd rows) = Some L /\
  remove v rows [] ["q"%string] 1 = Some (v', names') /\ line_length v' names' = Some L' /\ ~ L' == L.
Proof. exact Verif.Proofs.LineEditCases.remove_short. Qed.
Print Assumptions C26_short_element_refuted.

Definition ex : env := mkEnv
  [("q", EOwn (CMagnet true) 4 1); ("d", EOwn CDrift 2 0); ("e", EOwn CDrift 3 0); ("m", marker); ("r", EReplica "q"); ("k", EOwn CThin 0 5); ("z", EOwn CDrift 0 0)]%string 0 [].
Definition ex_rows : list (string * string) := [("d::0", "d"); ("q", "q"); ("m", "m"); ("d::1", "d"); ("r", "r"); ("k", "k"); ("e", "e")]%string.
Example C26_case :
  option_map snd (remove ex ex_rows [1; 5]%nat ["m"%string] (1 # 1000)) = Some ["d"; "||drift_1"; "d"; "r"; "e"]%string
  /\ replace ex ex_rows [] ["q"%string] "r" (1 # 1000) = Some ["d"; "r"; "m"; "d"; "r"; "k"; "e"]%string
  /\ replace ex ex_rows [] ["q"%string] "d" (1 # 1000) = None /\ remove ex ex_rows [] ["x"%string] 0 = None
  /\ line_length ex (map snd ex_rows) = Some (2 + (4 + (0 + (2 + (4 + (0 + (3 + 0))))))).
Proof. repeat split. Qed.

(** * C27 *)
Local Open Scope nat_scope.
Theorem C27_cycle_rotates f names names' : cycle f names = Some names' ->
  exists k, k <= List.length names /\ names' = skipn k names ++ firstn k names
  /\ match f with ByIndex i => (0 <= i <= Z.of_nat (List.length names) -> i = Z.of_nat k)%Z /\ (- Z.of_nat (List.length names) <= i < 0 -> i + Z.of_nat (List.length names) = Z.of_nat k)%Z
                | ByName n => nth_error names k = Some n /\ exists r, names' = n :: r end.
Proof. exact (Verif.Proofs.LineAlgebra.cycle_rotates f names names'). Qed.
Print Assumptions C27_cycle_rotates.

Theorem C27_cycle_defined f names : cycle f names <> None <-> match f with ByIndex _ => True | ByName n => count_occ string_dec names n = 1 end.
Proof. exact (Verif.Proofs.LineAlgebra.cycle_defined f names). Qed.
Print Assumptions C27_cycle_defined.

Theorem C27_cycle_order f names names' : cycle f names = Some names' -> names <> [] ->
  exists k, forall j, j < List.length names -> nth_error names' j = nth_error names ((j + k) mod List.length names).
Proof. exact (Verif.Proofs.LineAlgebra.cycle_order f names names'). Qed.
Print Assumptions C27_cycle_order.

Theorem C27_cycle_inverse i names : (- Z.of_nat (List.length names) <= i <= Z.of_nat (List.length names))%Z ->
  exists names', cycle (ByIndex i) names = Some names' /\ cycle (ByIndex (- i)) names' = Some names.
Proof. exact (Verif.Proofs.LineAlgebra.cycle_inverse i names). Qed.
Print Assumptions C27_cycle_inverse.

Theorem C27_cycle_inverse_name n h r names' : NoDup (h :: r) -> cycle (ByName n) (h :: r) = Some names' -> cycle (ByName h) names' = Some (h :: r).
Proof. exact (Verif.Proofs.LineAlgebra.cycle_inverse_name n h r names'). Qed.
Print Assumptions C27_cycle_inverse_name.

Theorem C27_cycle_length v f names names' L : cycle f names = Some names' -> line_length v names = Some L -> exists L', line_length v names' = Some L' /\ (L' == L)%Q.
Proof. exact (Verif.Proofs.LineAlgebra.cycle_length v f names names' L). Qed.
Print Assumptions C27_cycle_length.

Theorem C27_mirror_twice names : mirror (mirror names) = names.
Proof. exact (Verif.Proofs.LineAlgebra.mirror_twice names). Qed.
Print Assumptions C27_mirror_twice.

Theorem C27_mirror_length v names L : line_length v names = Some L -> exists L', line_length v (mirror names) = Some L' /\ (L' == L)%Q.
Proof. exact (Verif.Proofs.LineAlgebra.mirror_length v names L). Qed.
Print Assumptions C27_mirror_length.

Theorem C27_mirror_spans v names L i a b : line_length v names = Some L -> spans v names i a b ->
  spans v (mirror names) (List.length names - S i) (L - b) (L - a) /\ nth_error (mirror names) (List.length names - S i) = nth_error names i.
Proof. exact (Verif.Proofs.LineAlgebra.mirror_spans v names L i a b). Qed.
Print Assumptions C27_mirror_spans.

Theorem C27_times v k names names' L : times k names = Some names' -> line_length v names = Some L ->
  names' = List.concat (repeat names k) /\ 0 < k /\ exists L', line_length v names' = Some L' /\ (L' == inject_Z (Z.of_nat k) * L)%Q.
Proof. exact (Verif.Proofs.LineAlgebra.times_ok v k names names' L). Qed.
Print Assumptions C27_times.

Theorem C27_times_fails k names : times k names = None <-> k = 0.
Proof. exact (Verif.Proofs.LineAlgebra.times_fails k names). Qed.
Print Assumptions C27_times_fails.

Theorem C27_add len a b : add len a b = Some (a ++ b).
Proof. exact (Verif.Proofs.LineAlgebra.add_ok len a b). Qed.
Print Assumptions C27_add.

Theorem C27_add_length v len a b x y c : line_length v a = Some x -> line_length v b = Some y -> add len a b = Some c ->
  c = a ++ b /\ exists z, line_length v c = Some z /\ (z == x + y)%Q.
Proof. exact (Verif.Proofs.LineAlgebra.add_length v len a b x y c). Qed.
Print Assumptions C27_add_length.

Theorem C27_mirror_add len a b c : add len a b = Some c -> add len (mirror b) (mirror a) = Some (mirror c).
Proof. exact (Verif.Proofs.LineAlgebra.mirror_add len a b c). Qed.
Print Assumptions C27_mirror_add.

Theorem C27_add_assoc len a b c ab bc : add len a b = Some ab -> add len b c = Some bc -> add len ab c = add len a bc.
Proof. exact (Verif.Proofs.LineAlgebra.add_assoc len a b c ab bc). Qed.
Print Assumptions C27_add_assoc.

Theorem C27_subtract len a b : subtract len a b = Some (a ++ rev b).
Proof. exact (Verif.Proofs.LineAlgebra.subtract_ok len a b). Qed.
Print Assumptions C27_subtract.

Theorem C27_compose_mirror o l l' : o = Some l -> Composer.build_mirror true o = Some l' ->
  (Composer.pieces_length l' == Composer.pieces_length l)%Q /\
  forall u p w, l = u ++ p :: w -> exists u' w', l' = u' ++ p :: w' /\
    (Composer.pieces_length u' == Composer.pieces_length l - (Composer.pieces_length u + Composer.piece_length p))%Q.
Proof. exact (Verif.Proofs.LineAlgebra.compose_mirror o l l'). Qed.
Print Assumptions C27_compose_mirror.

Local Open Scope Q_scope.
Example C27_case :
  cycle (ByName "m") (map snd ex_rows) = Some ["m"; "d"; "r"; "k"; "e"; "d"; "q"]%string
  /\ cycle (ByName "d") (map snd ex_rows) = None
  /\ cycle (ByIndex (-2)) (map snd ex_rows) = Some ["k"; "e"; "d"; "q"; "m"; "d"; "r"]%string
  /\ mirror (map snd ex_rows) = ["e"; "k"; "r"; "d"; "m"; "q"; "d"]%string
  /\ times 2 ["a"; "b"]%string = Some ["a"; "b"; "a"; "b"]%string
  /\ add (fun _ => 1) ["a"; "b"]%string ["b"; "c"]%string = Some ["a"; "b"; "b"; "c"]%string.
Proof. repeat split. Qed.

(** * C30 *)
Theorem C30_markers (state : Type) drift other v keep names s s' : track state drift other v names s = Some s' ->
  track state drift other v (remove_markers v keep names) s = Some s'.
Proof. exact (Verif.Proofs.Simplify.markers_track state drift other v keep names s s'). Qed.
Print Assumptions C30_markers.

Theorem C30_markers_length v keep names L : line_length v names = Some L -> exists L', line_length v (remove_markers v keep names) = Some L' /\ L' == L.
Proof. exact (Verif.Proofs.Simplify.markers_length v keep names L). Qed.
Print Assumptions C30_markers_length.

Theorem C30_zero_drifts (state : Type) drift other v keep names s s' : drift_laws state drift ->
  track state drift other v names s = Some s' ->
  track state drift other v (remove_zero_drifts v keep names) s = Some s'.
Proof. exact (fun laws => Verif.Proofs.Simplify.zero_track state drift other laws v keep names s s'). Qed.
Print Assumptions C30_zero_drifts.

Theorem C30_zero_drifts_length v keep names L : line_length v names = Some L -> exists L', line_length v (remove_zero_drifts v keep names) = Some L' /\ L' == L.
Proof. exact (Verif.Proofs.Simplify.zero_length_ok v keep names L). Qed.
Print Assumptions C30_zero_drifts_length.

Theorem C30_merge (state : Type) drift other keep v order names v' names' : drift_laws state drift ->
  NoDup order -> (forall n, In n order <-> In n names) -> complete v names -> independent v names ->
  merge_drifts keep v order names = Some (v', names') ->
  (forall s s', track state drift other v names s = Some s' -> track state drift other v' names' s = Some s') /\
  (forall L, line_length v names = Some L -> exists L', line_length v' names' = Some L' /\ L' == L) /\
  NoDup names' /\
  (forall i a b, nth_error names' i = Some a -> nth_error names' (S i) = Some b -> ~ In a keep -> ~ In b keep -> is_drift v' a = true -> is_drift v' b = true -> False).
Proof. exact (Verif.Proofs.Simplify.merge_ok state drift other keep v order names v' names'). Qed.
Print Assumptions C30_merge.

Theorem C30_merge_defined keep v order names : NoDup order -> (forall n, In n order <-> In n names) -> complete v names -> 
  (forall n, In n names -> is_drift v n = true -> exists l t, lookup v n = Some (EOwn CDrift l t)) ->
  exists r, merge_drifts keep v order names = Some r.
Proof. exact (Verif.Proofs.Simplify.merge_defined keep v order names). Qed.
Print Assumptions C30_merge_defined.

(** With a replica of a merged drift in the line. *)
Theorem C30_replica_refuted : exists v names v' names' L L', complete v names /\ line_length v names = Some L /\
  merge_drifts [] v names names = Some (v', names') /\ line_length v' names' = Some L' /\ ~ L' == L.
Proof. exact Verif.Proofs.LineEditCases.merge_replica. Qed.
Print Assumptions C30_replica_refuted.

(** With two slices of a drift in a row. *)
Theorem C30_slices_refuted : exists v names L, line_length v names = Some L /\ merge_drifts [] v names names = None.
Proof. exact Verif.Proofs.LineEditCases.merge_slices. Qed.
Print Assumptions C30_slices_refuted.

Example C30_case :
  remove_markers ex [] (map snd ex_rows) = ["d"; "q"; "d"; "r"; "k"; "e"]%string
  /\ remove_zero_drifts ex [] ["d"; "z"; "q"]%string = ["d"; "q"]%string
  /\ (exists v', merge_drifts [] ex ["d"; "e"; "q"]%string ["d"; "e"; "q"; "d"; "d"]%string = Some (v', ["d.0"; "q"; "d.1"]%string)
       /\ lookup v' "d.0" = Some (EOwn CDrift (2 + 3) 0) /\ lookup v' "d.1" = Some (EOwn CDrift (2 + 2) 0) /\ lookup v' "d" = Some (EOwn CDrift 2 0))
  /\ drift_laws Qcanon.Qc (fun l s => Qcanon.Qcplus s (Qcanon.Q2Qc l)).
Proof.
  split; [reflexivity|]. split; [reflexivity|]. split; [eexists; split; [vm_compute; reflexivity|]; repeat split|].
  exact Verif.Proofs.LineEditCases.ex_laws.
Qed.

(** * C33 *)
Theorem C33_drifts l v q v' n : all_respect fresh_env l -> run l fresh_env = Some v -> get_drift v q = (v', n) ->
  exists q' t, resolve v' n = Some (n, EOwn CDrift q' t) /\ (q' == q)%Q /\ s_length v' n = Some q'.
Proof. exact (Verif.Proofs.History.drifts_ok l v q v' n). Qed.
Print Assumptions C33_drifts.

Theorem C33_drifts_stay l1 l2 v q v1 n v2 : all_respect fresh_env l1 -> run l1 fresh_env = Some v -> get_drift v q = (v1, n) ->
  all_respect v1 l2 -> run l2 v1 = Some v2 -> (forall o, In o l2 -> match o with OMerge _ _ _ => False | ONew m _ => m <> n | _ => True end) ->
  exists q' t, lookup v2 n = Some (EOwn CDrift q' t) /\ (q' == q)%Q.
Proof. exact (Verif.Proofs.History.drifts_stay l1 l2 v q v1 n v2). Qed.
Print Assumptions C33_drifts_stay.

(** Merging consecutive drifts changes a drift that the environment hands out again. *)
Theorem C33_merge_refuted : exists l v q n v', run l fresh_env = Some v /\ get_drift v q = (v', n) /\
  exists q', s_length v' n = Some q' /\ ~ q' == q.
Proof. exact Verif.Proofs.LineEditCases.merged_drift_reused. Qed.
Print Assumptions C33_merge_refuted.

Example C33_case : (exists v, run Verif.Proofs.LineEditCases.ex_history fresh_env = Some v /\ snd (get_drift v 2) = "||drift_1"%string
    /\ s_length v "||drift_1" = Some 2 /\ List.length (en_cache v) = 4%nat)
  /\ all_respect fresh_env Verif.Proofs.LineEditCases.ex_history.
Proof. split; [eexists; split; [vm_compute; reflexivity|]; repeat split|exact Verif.Proofs.LineEditCases.ex_respects]. Qed.

(** * C34 *)
Local Open Scope nat_scope.
Theorem C34_unique sep too v order names v' names' :
  NoDup order -> (forall n, In n order <-> In n names) -> (forall n, In n names -> resolve v n <> None) ->
  replace_repeated sep too v order names = Some (v', names') ->
  keeps v v' /\ (cache_ok v -> cache_ok v') /\ (edge_names_ok v -> edge_names_ok v') /\ List.length names' = List.length names /\
  (forall i n n', nth_error names i = Some n -> nth_error names' i = Some n' ->
     same_content v v' n n' /\
     (1 < count_occ string_dec names n /\ (too = true \/ is_prefix "||drift_" n = false) -> lookup v n' = None) /\
     (count_occ string_dec names n = 1 \/ (too = false /\ is_prefix "||drift_" n = true) -> n' = n)) /\
  (forall i j x, nth_error names' i = Some x -> nth_error names' j = Some x -> i = j \/ (too = false /\ is_prefix "||drift_" x = true)).
Proof. exact (Verif.Proofs.Repeated.repeated_ok sep too v order names v' names'). Qed.
Print Assumptions C34_unique.

Theorem C34_defined sep too v order names : (forall n, In n order -> resolve v n <> None) -> exists r, replace_repeated sep too v order names = Some r.
Proof. exact (Verif.Proofs.Repeated.repeated_defined sep too v order names). Qed.
Print Assumptions C34_defined.

(** Unless repeated generated drifts are to be kept. *)
Theorem C34_drifts_kept_refuted : exists v order names v' names', NoDup order /\ (forall n, In n order <-> In n names) /\ complete v names /\
  replace_repeated "." false v order names = Some (v', names') /\ ~ NoDup names'.
Proof. exact Verif.Proofs.LineEditCases.repeated_kept. Qed.
Print Assumptions C34_drifts_kept_refuted.

Local Open Scope Q_scope.
Example C34_case :
  option_map snd (replace_repeated "." true (set_elem ex "d.0" marker) ["q"; "d"; "m"]%string ["d"; "q"; "m"; "d"; "q"]%string)
  = Some ["d.1"; "q.0"; "m"; "d.2"; "q.1"]%string.
Proof. vm_compute. reflexivity. Qed.

(** * C35 *)
Theorem C35_filter v mask names v' names' L : line_length v names = Some L ->
  filter_elements v mask names = Some (v', names') ->
  (forall n l, masked mask names n -> is_drift v n = true -> s_length v n = Some l -> l == 0) ->
  (forall n k p w o, lookup v n = Some (ESlice k p w o) -> masked mask names p -> exists e, lookup v p = Some e /\ thick e = true) ->
  names' = names /\ same_positions v v' names (map (fun n => [n]) names) 0 /\
  (forall n, ~ masked mask names n -> lookup v' n = lookup v n) /\
  (forall n, masked mask names n -> exists l l', s_length v n = Some l /\ lookup v' n = Some (EOwn CDrift l' 0) /\ l' == l) /\
  ((forall n m, ~ masked mask names n -> refers v n m -> ~ masked mask names m) ->
     forall n, In n names -> ~ masked mask names n -> same_content v v' n n).
Proof. exact (Verif.Proofs.Filter.filter_ok v mask names v' names' L). Qed.
Print Assumptions C35_filter.

Theorem C35_defined v mask names L : line_length v names = Some L -> (filter_elements v mask names = None <-> List.length mask <> List.length names).
Proof. exact (Verif.Proofs.Filter.filter_fails v mask names L). Qed.
Print Assumptions C35_defined.

(** With a drift filtered out. *)
Theorem C35_drift_refuted : exists v mask names v' names' L L', line_length v names = Some L /\
  filter_elements v mask names = Some (v', names') /\ line_length v' names' = Some L' /\ ~ L' == L.
Proof. exact Verif.Proofs.LineEditCases.filter_drift. Qed.
Print Assumptions C35_drift_refuted.

(** With an element kept at one place and filtered out at another one. *)
Theorem C35_repeated_refuted : exists v mask names v' names', filter_elements v mask names = Some (v', names') /\
  nth_error mask 0 = Some true /\ nth_error names 0 = Some "q"%string /\ ~ same_content v v' "q" "q".
Proof. exact Verif.Proofs.LineEditCases.filter_repeated. Qed.
Print Assumptions C35_repeated_refuted.

(** With a replica of an element that is filtered out. *)
Theorem C35_replica_refuted : exists v mask names v' names', filter_elements v mask names = Some (v', names') /\
  nth_error mask 0 = Some true /\ nth_error names 0 = Some "r"%string /\ ~ In "r"%string (skipn 1 names) /\ ~ same_content v v' "r" "r".
Proof. exact Verif.Proofs.LineEditCases.filter_replica. Qed.
Print Assumptions C35_replica_refuted.

Example C35_case : exists v', filter_elements ex [true; false; true; true; true; false; true] (map snd ex_rows) = Some (v', map snd ex_rows)
  /\ lookup v' "q" = Some (EOwn CDrift 4 0) /\ lookup v' "k" = Some (EOwn CDrift 0 0) /\ lookup v' "d" = lookup ex "d"
  /\ filter_elements ex [true; false] (map snd ex_rows) = None.
Proof. eexists. split; [vm_compute; reflexivity|]. repeat split. Qed.

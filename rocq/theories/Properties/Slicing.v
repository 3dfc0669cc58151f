(** C24, C28, C29 and C47: cutting, slicing and replicas. *)
From Coq Require Import ZArith QArith Qabs List Bool String Lqa.
From Verif.Model Require Import Line Slicing.
From Verif.Spec Require Import Line Slicing.
From Verif.Proofs Require LineBase Slicing Slices Cuts SlicingCases.
Import ListNotations.
Local Open Scope Q_scope.

(** * C24 *)
Theorem C24_cut v rows tol ss v' names old :
  cache_ok v -> edge_names_ok v -> NoDup (map fst rows) -> 0 <= tol -> bounds v 0 (map snd rows) = Some old ->
  cut_at_s v rows tol ss = Some (v', names) ->
  keeps v v' /\ cache_ok v' /\ edge_names_ok v' /\
  exists new L L', bounds v' 0 names = Some new /\
    line_length v (map snd rows) = Some L /\ line_length v' names = Some L' /\ L' == L /\
    (forall b, at_boundary b old -> at_boundary b new) /\
    (forall b, at_boundary b new -> at_boundary b old \/ at_boundary b ss) /\
    (forall c, In c ss -> 0 <= c -> at_boundary c new \/ exists b, In b old /\ near tol c b) /\
    exists chunks, names = List.concat chunks /\ List.length chunks = List.length rows /\
      (forall i row a b, nth_error rows i = Some row -> nth_error old i = Some a -> nth_error old (S i) = Some b ->
        (forall c, In c ss -> ~ inside tol c a b) -> nth_error chunks i = Some [snd row]) /\
      Forall2 (fun row chunk => exists l l', s_length v (snd row) = Some l /\ line_length v' chunk = Some l' /\ l' == l) rows chunks /\
      ((forall n l, In n (map snd rows) -> s_length v n = Some l -> 0 <= l) -> forall n l, In n names -> s_length v' n = Some l -> 0 <= l).
Proof. exact (Verif.Proofs.Cuts.cut_at_s_ok v rows tol ss v' names old). Qed.
Print Assumptions C24_cut.

Theorem C24_defined v rows tol ss L : cache_ok v -> edge_names_ok v -> NoDup (map fst rows) -> 0 <= tol ->
  line_length v (map snd rows) = Some L ->
  (forall n l, In n (map snd rows) -> s_length v n = Some l -> 0 <= l) ->
  (forall c, In c ss -> c <= L) ->
  (exists n t e, In n (map snd rows) /\ resolve v n = Some (t, e) /\ thick e = true) ->
  exists r, cut_at_s v rows tol ss = Some r.
Proof. exact (Verif.Proofs.Cuts.cut_at_s_defined v rows tol ss L). Qed.
Print Assumptions C24_defined.

(** A line of thin elements only, and a position after the end: an error instead of nothing to do. *)
Theorem C24_thin_line_refuted : exists v rows, cache_ok v /\ edge_names_ok v /\
  line_length v (map snd rows) = Some (0 + 0) /\ cut_at_s v rows 0 [0] = None.
Proof. exact Verif.Proofs.SlicingCases.cut_thin_line. Qed.
Print Assumptions C24_thin_line_refuted.

Theorem C24_beyond_end_refuted : exists v rows, cache_ok v /\ edge_names_ok v /\
  line_length v (map snd rows) = Some (4 + 0) /\ cut_at_s v rows 0 [5] = None.
Proof. exact Verif.Proofs.SlicingCases.cut_beyond. Qed.
Print Assumptions C24_beyond_end_refuted.

Definition ex_env : env := mkEnv
  [("q", EOwn (CMagnet true) 4 1); ("d", EOwn CDrift 2 0); ("m", marker); ("r", EReplica "q")]%string 0 [].
Definition ex_rows : list (string * string) := [("q", "q"); ("d::0", "d"); ("m", "m"); ("r", "r"); ("d::1", "d")]%string.
Example C24_case : cache_ok ex_env /\ edge_names_ok ex_env /\ NoDup (map fst ex_rows) /\
  option_map snd (cut_at_s ex_env ex_rows (1 # 1000) [11; 1; 6; 7; 1])
  = Some ["q_entry"; "q..entry_map"; "q..0"; "q..1"; "q..exit_map"; "q_exit"; "d"; "m";
          "r_entry"; "r..entry_map"; "r..0"; "r..1"; "r..exit_map"; "r_exit"; "d..0"; "d..1"]%string.
Proof.
  split; [apply Verif.Proofs.SlicingCases.ex_env_ok|]. split; [apply Verif.Proofs.SlicingCases.ex_env_ok|].
  split; [repeat (constructor; [cbn; intuition congruence|]); constructor|vm_compute; reflexivity].
Qed.

(** * C28 *)
Theorem C28_weights c len ws : scheme_ok c = true -> iter_weights c len = Some ws ->
  qsum (drifts ws) == 1
  /\ (mode_of c = MThin -> List.length (drifts ws) = S (requested c) /\ List.length (kicks ws) = requested c /\ qsum (kicks ws) == 1)
  /\ (mode_of c = MThick -> List.length (drifts ws) = requested c /\ kicks ws = []).
Proof. exact (Verif.Proofs.Slicing.weights c len ws). Qed.
Print Assumptions C28_weights.

Theorem C28_defined c len : usable c len -> exists ws, iter_weights c len = Some ws.
Proof. exact (Verif.Proofs.Slicing.weights_defined c len). Qed.
Print Assumptions C28_defined.

Theorem C28_positive c len ws : usable c len -> iter_weights c len = Some ws ->
  (forall w, In w (drifts ws) -> 0 < w) /\ (forall w, In w (kicks ws) -> 0 < w).
Proof. exact (Verif.Proofs.Slicing.weights_positive c len ws). Qed.
Print Assumptions C28_positive.

Theorem C28_custom_positions l m len ws k : iter_weights (Custom l m) len = Some ws -> (k < List.length l)%nat ->
  qsum (firstn (S k) (drifts ws)) * len == nth k l 0.
Proof. exact (Verif.Proofs.Slicing.custom_positions l m len ws k). Qed.
Print Assumptions C28_custom_positions.

Theorem C28_element v name c mk v' l t cl len g : cache_ok v -> edge_names_ok v -> scheme_ok c = true ->
  resolve v name = Some (t, EOwn cl len g) -> slice_element v name c mk = Some (v', l) ->
  keeps v v' /\ cache_ok v' /\ edge_names_ok v' /\ exists pcs, framed v' t l pcs /\
    offsets_ok len 0 pcs /\ qsum (map (piece_length len) pcs) == len /\
    (auto_drift name (EOwn cl len g) = false -> qsum (map body_weight pcs) == 1) /\
    (qsum (map kick_weight pcs) == (match mode_of c with MThick => 0 | MThin => if is_drift_elem (EOwn cl len g) then 0 else 1 end)).
Proof. exact (Verif.Proofs.Slices.slice_own v name c mk v' l t cl len g). Qed.
Print Assumptions C28_element.

Theorem C28_slice_of_slice v name c mk v' l t k p w0 o0 cl lp g : cache_ok v -> edge_names_ok v -> scheme_ok c = true ->
  resolve v name = Some (t, ESlice k p w0 o0) -> lookup v p = Some (EOwn cl lp g) -> slice_element v name c mk = Some (v', l) ->
  keeps v v' /\ cache_ok v' /\ edge_names_ok v' /\ exists pcs, framed v' p l pcs /\
    qsum (map (piece_length lp) pcs) == lp * w0 /\ qsum (map body_weight pcs) == w0 /\
    (qsum (map kick_weight pcs) == (match mode_of c, k with MThin, SDrift | MThick, _ => 0 | MThin, _ => w0 end)).
Proof. exact (Verif.Proofs.Slices.slice_again v name c mk v' l t k p w0 o0 cl lp g). Qed.
Print Assumptions C28_slice_of_slice.

Theorem C28_line strategies mk v rows v' names L : cache_ok v -> edge_names_ok v ->
  line_length v (map snd rows) = Some L -> slice_rows strategies mk v rows = Some (v', names) ->
  keeps v v' /\ cache_ok v' /\ edge_names_ok v' /\ (exists L', line_length v' names = Some L' /\ L' == L) /\
  exists chunks, names = List.concat chunks /\
    Forall2 (fun row chunk => exists l l', s_length v (snd row) = Some l /\ line_length v' chunk = Some l' /\ l' == l) rows chunks.
Proof. exact (Verif.Proofs.Slices.slice_line strategies mk v rows v' names L). Qed.
Print Assumptions C28_line.

Theorem C28_line_defined strategies mk rows v : cache_ok v -> edge_names_ok v ->
  Forall (fun row => exists l e t r, s_length v (snd row) = Some l /\ lookup v (snd row) = Some e /\ resolve v (snd row) = Some (t, r) /\
    (skip v e r = false -> exists o, scheme_for_element strategies (fst row) e r = Some o /\ forall c, o = Some c -> usable c l)) rows ->
  exists r, slice_rows strategies mk v rows = Some r.
Proof. exact (Verif.Proofs.Slices.slice_rows_defined strategies mk rows v). Qed.
Print Assumptions C28_line_defined.

(** The offset of the slices of a slice is not their distance from the start of the parent. *)
Theorem C28_resliced_offset_refuted : exists v v' l n,
  resolve v "q..1" = Some ("q..1"%string, ESlice SThick "q" (1 / qnat 2 * 1) (0 + 4 * (1 / qnat 2) * 1))
  /\ lookup v "q" = Some (EOwn (CMagnet true) 4 1)
  /\ slice_element v "q..1" (Uniform 2 MThick) false = Some (v', l) /\ nth_error l 0 = Some n
  /\ exists w o, lookup v' n = Some (ESlice SThick "q" w o) /\ w == 1 # 4 /\ ~ o == 2.
Proof. exact Verif.Proofs.SlicingCases.resliced_offsets. Qed.
Print Assumptions C28_resliced_offset_refuted.

(** Without the hypothesis on names ending with _entry or _exit, elements can be lost. *)
Theorem C28_marker_name_refuted : exists v v' l, resolve v "q" = Some ("q"%string, EOwn (CMagnet true) 4 1)
  /\ slice_element v "q" (Uniform 2 MThick) true = Some (v', l) /\ ~ keeps v v'.
Proof. exact Verif.Proofs.SlicingCases.marker_overwrites. Qed.
Print Assumptions C28_marker_name_refuted.

Theorem C28_no_cut_refuted len : scheme_ok (Custom [] MThick) = true /\ iter_weights (Custom [] MThick) len = None.
Proof. exact (Verif.Proofs.SlicingCases.custom_empty len). Qed.
Print Assumptions C28_no_cut_refuted.

Theorem C28_unsorted_refuted : exists l len ws, iter_weights (Custom l MThick) len = Some ws /\ (forall x, In x l -> 0 < x /\ x < len)
  /\ exists w, In w (drifts ws) /\ w < 0.
Proof. exact Verif.Proofs.SlicingCases.custom_unsorted. Qed.
Print Assumptions C28_unsorted_refuted.

Example C28_case : option_map snd (slice_element ex_env "q" (Teapot 2 MThin) true)
  = Some ["q_entry"; "q..entry_map"; "drift_q..0"; "q..0"; "drift_q..1"; "q..1"; "drift_q..2"; "q..exit_map"; "q_exit"]%string
  /\ usable (Custom [1; 3] MThin) 4.
Proof. split; [vm_compute; reflexivity|]. split; [discriminate|]. cbn. lra. Qed.

(** * C29 *)
Theorem C29_last_wins strategies name e r c :
  scheme_for_element strategies name e r = Some c <->
  exists before s after, drifts_untouched :: strategies = before ++ s :: after /\ applies s name e r /\ st_slicing s = c
    /\ Forall (fun s' => ~ applies s' name e r) after.
Proof. exact (Verif.Proofs.Slices.last_wins strategies name e r c). Qed.
Print Assumptions C29_last_wins.

Theorem C29_error strategies name e r : scheme_for_element strategies name e r = None <->
  Forall (fun s => ~ applies s name e r) (drifts_untouched :: strategies).
Proof. exact (Verif.Proofs.Slices.no_scheme strategies name e r). Qed.
Print Assumptions C29_error.

Theorem C29_rows strategies mk v rows v' names : cache_ok v -> edge_names_ok v ->
  Forall (fun r => s_length v (snd r) <> None) rows -> slice_rows strategies mk v rows = Some (v', names) ->
  exists chunks, names = List.concat chunks /\
    Forall2 (fun row chunk => exists e t r, lookup v (snd row) = Some e /\ resolve v (snd row) = Some (t, r) /\
      (thick r = false \/ scheme_for_element strategies (fst row) e r = Some None -> chunk = [snd row]) /\
      (thick r = true -> (forall c l g, e = EOwn c l g -> ~ l == 0) -> scheme_for_element strategies (fst row) e r <> None)) rows chunks.
Proof. exact (Verif.Proofs.Slices.rows_left strategies mk v rows v' names). Qed.
Print Assumptions C29_rows.

Example C29_case :
  let s1 := mkStrategy (Some (Uniform 3 MThin)) None None in
  let s2 := mkStrategy (Some (Teapot 5 MThin)) (Some (String.eqb "q")) None in
  let s3 := mkStrategy (Some (Uniform 7 MThick)) (Some (String.eqb "x")) None in
  scheme_for_element [s1; s2; s3] "q" (EOwn (CMagnet true) 4 1) (EOwn (CMagnet true) 4 1) = Some (Some (Teapot 5 MThin))
  /\ scheme_for_element [s1; s2; s3] "r" (EOwn (CMagnet true) 4 1) (EOwn (CMagnet true) 4 1) = Some (Some (Uniform 3 MThin))
  /\ scheme_for_element [s1; s2; s3] "d" (EOwn CDrift 4 1) (EOwn CDrift 4 1) = Some None
  /\ scheme_for_element [s2; s3] "r" (EOwn (CMagnet true) 4 1) (EOwn (CMagnet true) 4 1) = None.
Proof. repeat split. Qed.

(** * C47 *)
Theorem C47_resolve v parent target : resolve_replica v parent = Some target <-> leads v parent target.
Proof. exact (Verif.Proofs.LineBase.resolve_replica_iff v parent target). Qed.
Print Assumptions C47_resolve.

Theorem C47_element v n t e : resolve v n = Some (t, e) <-> leads v n t /\ lookup v t = Some e.
Proof. exact (Verif.Proofs.LineBase.resolve_iff v n t e). Qed.
Print Assumptions C47_element.

Theorem C47_unique v n t t' : leads v n t -> leads v n t' -> t = t'.
Proof. exact (Verif.Proofs.LineBase.leads_unique v n t t'). Qed.
Print Assumptions C47_unique.

Theorem C47_not_replica v n t : leads v n t -> exists e, lookup v t = Some e /\ forall p, e <> EReplica p.
Proof. exact (Verif.Proofs.LineBase.leads_end v n t). Qed.
Print Assumptions C47_not_replica.

Example C47_case :
  let v := mkEnv [("a", EReplica "b"); ("b", EReplica "c"); ("c", marker); ("x", EReplica "y"); ("y", EReplica "x"); ("z", EReplica "u")]%string 0 [] in
  resolve v "a" = Some ("c"%string, marker) /\ resolve v "x" = None /\ resolve v "z" = None.
Proof. repeat split. Qed.

(** Model of the [Particles] container: grouping, adding, merging, filtering and sorting.
    Source: xtrack/particles/particles.py.

    A row gathers the per-particle variables of one slot: particle_id, parent_particle_id, state,
    the random generator state (the variables whose name starts with _rng) and all
    others ([r_c]). Arrays are lists of rows; column by column operations of the code are
    row operations here. CPU context; scalar variables (q0, mass0, t_sim) and the checks of
    their compatibility are not modelled. *)
From Coq Require Import ZArith List Bool QArith.
Import ListNotations.
Local Open Scope Z_scope.

(** particles.py:24 *)
Definition LAST_INVALID : Z := -999999999.

Record row (C G : Type) := mkRow {
  r_id : Z; r_parent : Z; r_state : Z; r_c : C; r_rng : G }.
Arguments mkRow {C G}. Arguments r_id {C G}. Arguments r_parent {C G}. Arguments r_state {C G}.
Arguments r_c {C G}. Arguments r_rng {C G}.

Section Container.
Context {C G : Type}.
(** The value of the other variables of a free slot (all LAST_INVALID_STATE), particles.py:591-596. *)
Variable blank_c : C.
Notation row := (row C G).

Definition is_active (r : row) : bool := 0 <? r_state r.
Definition is_lost (r : row) : bool := (r_state r <? 1) && (LAST_INVALID <? r_state r).
Definition is_used (r : row) : bool := LAST_INVALID <? r_state r.

(** The object: all slots, whether lost particles are hidden (_lim_arrays_name), and the counters
    _num_active_particles and _num_lost_particles. *)
Record parts := mkParts {
  rows : list row; hidden : bool; nact : Z; nlost : Z }.

(** Attribute access: with lost particles hidden only the first _num_active_particles
    slots are visible (particles.py:1437-1439 and xobjects' limited arrays). *)
Definition visible (p : parts) : list row :=
  if hidden p then firstn (Z.to_nat (nact p)) (rows p) else rows p.

Definition zlen {A} (l : list A) : Z := Z.of_nat (length l).

(** The rows of [l] with the random generator states of the rows of [slots]. *)
Fixpoint with_rng (slots l : list row) : list row :=
  match slots, l with
  | s :: slots', r :: l' =>
      mkRow (r_id r) (r_parent r) (r_state r) (r_c r) (r_rng s) :: with_rng slots' l'
  | _, _ => []
  end.

(** The body of [if needs_reorganization], particles.py:1236-1248: columns other than _rng are
    rearranged, what remains is filled with LAST_INVALID_STATE. *)
Definition blank (r : row) : row :=
  mkRow LAST_INVALID LAST_INVALID LAST_INVALID blank_c (r_rng r).

Definition regroup (l : list row) : list row :=
  let act := filter is_active l in
  let lost := filter is_lost l in
  with_rng l (act ++ lost ++ map blank (skipn (length (act ++ lost)) l)).

(** [reorganize] on the slots, particles.py:1229-1248. *)
Definition reorganize_rows (l : list row) : list row * Z * Z :=
  let n_active := length (filter is_active l) in
  let n_lost := length (filter is_lost l) in
  let needs_reorganization := negb (forallb is_active (firstn n_active l)) in
  ((if needs_reorganization then regroup l else l), Z.of_nat n_active, Z.of_nat n_lost).

(** [Particles.reorganize], particles.py:1198-1257 (unhides and hides again). *)
Definition reorganize (p : parts) : parts :=
  let '(l, na, nl) := reorganize_rows (rows p) in
  mkParts l (hidden p) na nl.

(** [hide_lost_particles] and [unhide_lost_particles], particles.py:1262-1278 *)
Definition hide (p : parts) : parts :=
  let q := reorganize p in mkParts (rows q) true (nact q) (nlost q).
Definition unhide (p : parts) : parts := mkParts (rows p) false (nact p) (nlost p).

(** np.max: raises on an empty array. *)
Definition np_max (l : list Z) : option Z :=
  match l with [] => None | x :: l' => Some (fold_left Z.max l' x) end.
Definition np_min (l : list Z) : option Z :=
  match l with [] => None | x :: l' => Some (fold_left Z.min l' x) end.

(** numpy [vv[a:a+n] = src] where [src] has [n] elements and the slice of the (visible) array is
    shorter: arrays of different lengths do not broadcast, except a source of length 1. *)
Definition slice_assign (vis : nat) (l : list row) (a : nat) (src : list row) : option (list row) :=
  let dst := (Nat.min (a + length src) vis - Nat.min a vis)%nat in
  if Nat.eqb dst (length src) then
    Some (firstn a l ++ with_rng (skipn a l) src ++ skipn (a + length src) l)
  else if Nat.eqb (length src) 1 then Some l   (* nothing is written: dst = 0 *)
  else None.

Fixpoint set_ids (id : Z) (l : list row) : list row :=
  match l with
  | [] => []
  | r :: l' => mkRow id (r_parent r) (r_state r) (r_c r) (r_rng r) :: set_ids (id + 1) l'
  end.

(** [Particles.add_particles], particles.py:1291-1338 (keep_lost = False). [None]: exception. *)
Definition add_particles (p other : parts) : option parts :=
  let copied := filter is_active (visible other) in
  let n_copy := zlen copied in
  let p := reorganize p in
  let i_start := Z.to_nat (nact p + nlost p) in
  let n_free := zlen (rows p) - nact p - nlost p in
  match np_max (map r_id (firstn i_start (visible p))) with
  | None => None
  | Some max_id =>
      if n_free <? n_copy then None
      else
        (* the new identifiers are written after the other columns in the same slots *)
        match slice_assign (length (visible p)) (rows p) i_start (set_ids (max_id + 1) copied) with
        | None => None
        | Some l => Some (reorganize (mkParts l (hidden p) (nact p) (nlost p)))
        end
  end.

(** [Particles.merge], particles.py:1052-1076, on the visible slots of the merged objects. *)
Definition shift_ids (d : Z) (r : row) : row :=
  if 0 <=? r_id r then mkRow (r_id r + d) (r_parent r + d) (r_state r) (r_c r) (r_rng r) else r.

Fixpoint merge_rows (max_id_curr : Z) (lst : list (list row)) : option (list row) :=
  match lst with
  | [] => Some []
  | pp :: lst' =>
      match np_min (filter (fun i => 0 <=? i) (map r_id pp)) with
      | None => None
      | Some m =>
          let pp' := if m <=? max_id_curr then map (shift_ids (max_id_curr + 1)) pp else pp in
          match np_max (map r_id pp') with
          | None => None
          | Some mx =>
              match merge_rows mx lst' with
              | None => None
              | Some l => Some (pp' ++ l)
              end
          end
      end
  end.

Definition merge (lst : list parts) : option parts :=
  match lst with
  | [] => None
  | _ =>
      match merge_rows (-1) (map rows lst) with
      | None => None
      | Some l => Some (reorganize (mkParts l false 0 0))
      end
  end.

(** [Particles.filter] with a boolean mask, particles.py:1090-1146: an empty selection asks for a
    capacity of zero, which is refused. *)
Fixpoint select {A} (mask : list bool) (l : list A) : list A :=
  match mask, l with
  | m :: mask', r :: l' => if m then r :: select mask' l' else select mask' l'
  | _, _ => []
  end.

Definition pfilter (mask : list bool) (p : parts) : option parts :=
  if negb (Nat.eqb (length mask) (length (visible p))) then None
  else match select mask (visible p) with
       | [] => None
       | l => Some (reorganize (mkParts l false 0 0))
       end.

(** [remove_unused_space], particles.py:1280-1289 *)
Definition remove_unused_space (p : parts) : option parts :=
  pfilter (map is_used (visible p)) p.

(** [Particles.sort], particles.py:1148-1196. [argsort] is np.argsort (no stability assumed);
    float64 keys are rationals, the sum with [10 + max_id_active] is exact. *)
Variable argsort : list Q -> list nat.

Definition permute (idx : list nat) (l : list row) : list row :=
  flat_map (fun i => match nth_error l i with Some r => [r] | None => [] end) idx.

Definition sort (by_ : row -> Q) (interleave : bool) (p : parts) : option parts :=
  let was_hidden := hidden p in
  let p := reorganize (unhide p) in
  let n_used := Z.to_nat (nact p + nlost p) in
  let used := firstn n_used (rows p) in
  let n_active := Z.to_nat (nact p) in
  let key := map by_ used in
  let r :=
    if interleave then Some key
    else match np_max (map r_id (firstn n_active (rows p))) with
         | None => None
         | Some max_id =>
             Some (firstn n_active key
                   ++ map (fun k => (inject_Z (10 + max_id) + k)%Q) (skipn n_active key))
         end in
  match r with
  | None => None
  | Some key =>
      let l := permute (argsort key) used ++ skipn n_used (rows p) in
      Some (if interleave then mkParts l false (-2) (-2)
            else mkParts l was_hidden (nact p) (nlost p))
  end.
End Container.

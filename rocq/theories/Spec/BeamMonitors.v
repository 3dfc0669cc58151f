(** What the beam monitors should report. *)
From Coq Require Import ZArith QArith List Bool.
From Verif.Model Require Import BeamMonitors.
Import ListNotations.
Local Open Scope Q_scope.

Definition total {P} (f : P -> Q) (l : list P) : Q := fold_right (fun p a => f p + a) 0 l.
Definition Qlt_bool (a b : Q) : bool := negb (Qle_bool b a).

(** * Position, size and profile monitors *)

(** The ids the documentation promises: a negative number of particles means all. *)
Definition id_wanted (id0 num id : Z) : bool :=
  ((num <? 0) || ((id0 <=? id) && (id <? id0 + num)))%Z.

(** Arrival time at the monitor, in sampling periods after the first turn. *)
Definition arrival (c_light : Q) (c : bpm) (p : bpart) : Q :=
  bp_fs c * (inject_Z (b_turn p - bp_start c) / bp_frev c - b_zeta p / b_beta0 p / c_light).

(** Sample [k] covers half a sampling period on each side. *)
Definition in_sample (r : Q) (k : Z) : bool :=
  (if (k =? 0)%Z then Qlt_bool (- (1 # 2)) r else Qle_bool (inject_Z k - (1 # 2)) r)
  && Qlt_bool r (inject_Z k + (1 # 2)).

Definition in_slot (c_light : Q) (c : bpm) (k : Z) (p : bpart) : bool :=
  id_wanted (bp_id0 c) (bp_num c) (b_id p) && in_sample (arrival c_light c p) k.

(** Ids as documented: particles chosen by range, or all of them. *)
Definition ids_ok (c : bpm) : Prop :=
  (0 <= bp_id0 c /\ 0 <= bp_num c)%Z \/ (bp_num c < 0 /\ bp_id0 c + bp_num c < 0)%Z.

Definition in_bin (g : prof) (v : Q) (i : Z) : bool :=
  Qle_bool (prof_edge g i) v && Qlt_bool v (prof_edge g (i + 1)).

(** * BeamStatsMonitor *)

(** Axes after the record: bunches and slices. *)
Definition n_bunch (c : stats) : Z := match st_mode c with Beam => 1 | _ => st_nsel c end.
Definition n_slice (c : stats) : Z := match st_mode c with Beam | Bunch => 1 | _ => st_nsl c end.

Definition stats_id (c : stats) (id : Z) : bool :=
  ((st_id0 c <? 0) || ((st_id0 c <=? id) && (id <? st_id1 c)))%Z.

(** Turn of record [r]. *)
Definition rec_turn (c : stats) (r : Z) : Z := (st_start c + r * st_every c)%Z.

(** Bucket of the [b]-th selected slot, if there is more than one bucket: slot [k] is behind
    slot 0 by [k] bunch spacings and extends over one spacing. *)
Definition in_bucket (c : stats) (zeta : Q) (b : Z) : bool :=
  if Qeq_bool (st_sp c) 0 then true
  else let lo := st_zmin c - inject_Z (nth (Z.to_nat b) (st_sel c) 0%Z) * st_sp c in
       Qle_bool lo zeta && Qlt_bool zeta (lo + st_sp c).

Definition in_slice (c : stats) (zeta : Q) (b s : Z) : bool :=
  let lo := st_zmin c - inject_Z (nth (Z.to_nat b) (st_sel c) 0%Z) * st_sp c in
  Qle_bool (lo + inject_Z s * st_dz c) zeta && Qlt_bool zeta (lo + inject_Z (s + 1) * st_dz c).

(** A coasting beam is observed at the effective turn [t - zeta / length]. *)
Definition in_turn_slice (len : Q) (c : stats) (p : bpart) (r s : Z) : bool :=
  let u := inject_Z (b_turn p) - b_zeta p / len in
  let lo := inject_Z (rec_turn c r) - (1 # 2) in
  Qle_bool (lo + inject_Z s / inject_Z (st_nsl c)) u
  && Qlt_bool u (lo + inject_Z (s + 1) / inject_Z (st_nsl c)).

(** The passage [p] belongs to record [r], bunch [b], slice [s]. *)
Definition belongs (len : Q) (c : stats) (r b s : Z) (p : bpart) : bool :=
  stats_id c (b_id p) &&
  match st_mode c with
  | Beam => (b_turn p =? rec_turn c r)%Z
  | Bunch => (b_turn p =? rec_turn c r)%Z && in_bucket c (b_zeta p) b
  | Slice => (b_turn p =? rec_turn c r)%Z && in_bucket c (b_zeta p) b && in_slice c (b_zeta p) b s
  | Coasting => in_turn_slice len c p r s
  end.

(** The passages of an entry of a coarser level: all its bunches, or all its slices. *)
Definition of_level (len : Q) (c : stats) (level : bmode) (r b s : Z) (p : bpart) : bool :=
  match level with
  | Beam => existsb (fun b => existsb (fun s => belongs len c r b s p) (zrange (n_slice c))) (zrange (n_bunch c))
  | Bunch => existsb (fun s => belongs len c r b s p) (zrange (n_slice c))
  | _ => belongs len c r b s p
  end.

Definition level_ok (c : stats) (level : bmode) : Prop :=
  match st_mode c, level with
  | Beam, Beam | Bunch, (Bunch | Beam) | Slice, (Slice | Bunch | Beam) | Coasting, (Slice | Beam) => True
  | _, _ => False
  end.

(** The entries of the arrays. *)
Definition inside (c : stats) (r b s : Z) : Prop :=
  (0 <= r < st_nrec c /\ 0 <= b < n_bunch c /\ 0 <= s < n_slice c)%Z.

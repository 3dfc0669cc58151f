(** Line.check_aperture: xtrack/line.py:5489-5609. *)
From Coq Require Import ZArith QArith Qabs List Bool Arith.
Import ListNotations.

(** What the method looks at in an element: is it an aperture (7735-7738), is it thick (7740-7743), its
    length, does it allow the refinement of losses (7752-7755), does its name end with _entry or _exit,
    is its name in [needs_aperture]. *)
Record row := mkRow { r_aper : bool; r_thick : bool; r_len : Q; r_refine : bool; r_edge : bool; r_needs : bool }.

Definition advances (r : row) : Q := if r_thick r then r_len r else 0.
(** line.py:962 of [get_table]: positions of the elements and of [_end_point] *)
Fixpoint positions (s : Q) (rows : list row) : list Q :=
  match rows with [] => [s] | r :: rest => s :: positions (s + advances r) rest end.

(** 5526-5537 *)
Definition dont_need (r : row) : bool := (r_refine r && negb (r_needs r)) || r_edge r.
(** 5547-5549: column isthick after the correction *)
Definition isthick (r : row) : bool := r_thick r && negb (r_needs r && Qeq_bool (r_len r) 0).

(** First aperture, starting to count from [i]. *)
Fixpoint first_aperture (i : nat) (rows : list row) : option nat :=
  match rows with [] => None | r :: rest => if r_aper r then Some i else first_aperture (S i) rest end.

(** 5560-5578: the loop over the elements from number [iee] on; for each, the apertures upstream and
    downstream, when they are filled in *)
Fixpoint scan (iee i_prev i_next : nat) (rows : list row) : list (option (nat * nat)) :=
  match rows with
  | [] => []
  | r :: rest =>
    if r_aper r then None :: scan (S iee) iee i_next rest
    else if dont_need r then None :: scan (S iee) i_prev i_next rest
    else
      let i_next := if (i_next <? iee)%nat
                    then match first_aperture iee rows with Some ii => ii | None => i_next end
                    else i_next in
      Some (i_prev, i_next) :: scan (S iee) i_prev i_next rest
  end.
(** 5551-5554: the loop starts at the first aperture; [_end_point] counts as an aperture there *)
Definition apertures_of (rows : list row) : list (option (nat * nat)) :=
  let i0 := match first_aperture 0 rows with Some i => i | None => length rows end in
  repeat None i0 ++ scan i0 i0 0 (skipn i0 rows).

(** 5580-5594 *)
Definition tol : Q := 1 # 1000000.
Record report := mkReport { misses_upstream : bool; misses_downstream : bool; has_problem : bool }.
Definition report_of (s : list Q) (i : nat) (r : row) (ap : option (nat * nat)) : report :=
  match ap with
  | None => mkReport false false false
  | Some (u, d) =>
    let s_i := nth i s 0 in
    let s_down := if isthick r then s_i + r_len r else s_i in
    let up := negb (Qeq_bool (nth u s 0) s_i) in
    let down := negb (Qle_bool (Qabs (nth d s 0 - s_down)) tol) in
    mkReport up down (up || (isthick r && down))
  end.
Fixpoint reports (s : list Q) (i : nat) (rows : list row) (aps : list (option (nat * nat))) : list report :=
  match rows, aps with
  | r :: rows, ap :: aps => report_of s i r ap :: reports s (S i) rows aps
  | _, _ => []
  end.
Definition check_aperture (rows : list row) : list report :=
  reports (positions 0 rows) 0 rows (apertures_of rows).

(** 5598-5609: the two lists of elements which are printed *)
Definition printed_thin (r : row) (p : report) : bool := misses_upstream p && negb (isthick r).
Definition printed_thick (r : row) (p : report) : bool := (misses_upstream p || misses_downstream p) && isthick r.

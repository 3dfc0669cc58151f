(** C25: insertions. *)
From Coq Require Import ZArith QArith Qabs List Bool String.
From Verif.Model Require Import Composer.
From Verif.Model Require Import Line Slicing Insert.
From Verif.Spec Require Import Line Slicing LineEdit Insert.
From Verif.Proofs Require InsertTop InsertMore InsertRelative InsertCases SlicingCases.
Import ListNotations.
Local Open Scope Q_scope.

(** * C25 *)
Theorem C25_insert v rows what stol tol ref v' names' old s f tab L :
  cache_ok v -> edge_names_ok v -> NoDup (map fst rows) -> 0 < stol -> stol <= tol ->
  bounds v 0 (map snd rows) = Some old -> line_length v (map snd rows) = Some L -> crows v 0 rows = Some tab ->
  Verif.Model.Composer.resolve (len_of v) ACenter (line_places (map snd rows) tab ++ what) = Some (s, f) ->
  (forall n l, In n (map snd rows) -> s_length v n = Some l -> 0 <= l) ->
  let req := requested (len_of v) (map pl_name what) (skipn (List.length rows) s) in
  insertable tol L old req ->
  insert v rows what stol tol ref = Some (v', names') ->
  keeps v v' /\ cache_ok v' /\ edge_names_ok v'
  /\ (exists L', line_length v' names' = Some L' /\ L' == L)
  /\ exists ss names1 src, cut_at_s v rows tol ss = Some (v', names1)
     /\ (forall c, In c ss <-> exists n u w, In (n, (u, w)) req /\ (c = u \/ c = w))
     /\ arranged v' names1 names' req src.
Proof. exact (Verif.Proofs.InsertTop.insert_ok v rows what stol tol ref v' names' old s f tab L). Qed.
Print Assumptions C25_insert.

Theorem C25_positions v rows what stol tol ref v' names' old s f tab L :
  cache_ok v -> edge_names_ok v -> NoDup (map fst rows) -> 0 < stol -> stol <= tol ->
  bounds v 0 (map snd rows) = Some old -> line_length v (map snd rows) = Some L -> crows v 0 rows = Some tab ->
  Verif.Model.Composer.resolve (len_of v) ACenter (line_places (map snd rows) tab ++ what) = Some (s, f) ->
  (forall n l, In n (map snd rows) -> s_length v n = Some l -> 0 <= l) ->
  let req := requested (len_of v) (map pl_name what) (skipn (List.length rows) s) in
  insertable tol L old req ->
  insert v rows what stol tol ref = Some (v', names') ->
  (forall n u w, In (n, (u, w)) req -> exists k, at_place v' names' k n u w)
  /\ (forall i n a b, at_place v (map snd rows) i n a b -> untouched req a b -> exists k, at_place v' names' k n a b)
  /\ (forall i j n m a b a' b', (i < j)%nat -> at_place v (map snd rows) i n a b -> untouched req a b ->
        at_place v (map snd rows) j m a' b' -> untouched req a' b' ->
        exists k k', (k < k')%nat /\ at_place v' names' k n a b /\ at_place v' names' k' m a' b').
Proof. exact (Verif.Proofs.InsertMore.insert_old v rows what stol tol ref v' names' old s f tab L). Qed.
Print Assumptions C25_positions.

Theorem C25_absolute_positions v rows what tab old : bounds v 0 (map snd rows) = Some old -> crows v 0 rows = Some tab -> (forall p, In p what -> absolute p) ->
  exists s f, Verif.Model.Composer.resolve (len_of v) ACenter (line_places (map snd rows) tab ++ what) = Some (s, f) /\
  Forall2 (fun p u => exists a, pl_at p = Some a /\ u + anchor_offset (dflt ACenter (pl_anchor p)) (len_of v (pl_name p)) == a) what (skipn (List.length rows) s).
Proof. exact (Verif.Proofs.InsertMore.insert_positions v rows what tab old). Qed.
Print Assumptions C25_absolute_positions.

(** An insertion relative to another element is at the requested distance from where that element is in the line, or from where
    it is inserted. *)
Theorem C25_relative_positions v rows what tab s f j p n a u :
  crows v 0 rows = Some tab ->
  Verif.Model.Composer.resolve (len_of v) ACenter (line_places (map snd rows) tab ++ what) = Some (s, f) ->
  nth_error what j = Some p -> pl_from p = Some n -> pl_at p = Some a -> nth_error (skipn (List.length rows) s) j = Some u ->
  exists ref,
    u + anchor_offset (dflt ACenter (pl_anchor p)) (len_of v (pl_name p)) ==
    ref + anchor_offset (dflt ACenter (pl_from_anchor p)) (len_of v n) + a /\
    ((exists i b, at_place v (map snd rows) i n ref b) \/
     (exists j' q, nth_error what j' = Some q /\ pl_name q = n /\ nth_error (skipn (List.length rows) s) j' = Some ref)).
Proof. exact (Verif.Proofs.InsertRelative.relative v rows what tab s f j p n a u). Qed.
Print Assumptions C25_relative_positions.

Theorem C25_succeeds v rows what stol tol ref old s f tab L :
  cache_ok v -> edge_names_ok v -> NoDup (map fst rows) -> 0 < stol -> stol <= tol ->
  bounds v 0 (map snd rows) = Some old -> line_length v (map snd rows) = Some L -> crows v 0 rows = Some tab ->
  (forall p, In p what -> absolute p /\ exists l, s_length v (pl_name p) = Some l) ->
  (exists n t e, In n (map snd rows) /\ resolve v n = Some (t, e) /\ thick e = true) ->
  Verif.Model.Composer.resolve (len_of v) ACenter (line_places (map snd rows) tab ++ what) = Some (s, f) ->
  (forall n l, In n (map snd rows) -> s_length v n = Some l -> 0 <= l) ->
  insertable tol L old (requested (len_of v) (map pl_name what) (skipn (List.length rows) s)) ->
  exists v' names', insert v rows what stol tol ref = Some (v', names').
Proof. exact (Verif.Proofs.InsertMore.insert_defined v rows what stol tol ref old s f tab L). Qed.
Print Assumptions C25_succeeds.

(** an insertion that starts exactly the tolerance before the end of a magnet replaces the whole magnet *)
Theorem C25_at_tolerance_refuted : exists v rows what stol tol ref v' names', 0 < stol /\ stol <= tol /\
  Verif.Model.Insert.insert v rows what stol tol ref = Some (v', names') /\
  In "q"%string (map snd rows) /\ at_place v (map snd rows) 0 "q" 0 2 /\
  (exists p a, what = [p] /\ pl_anchor p = Some AStart /\ pl_at p = Some a /\ pl_from p = None /\ 2 - a <= tol) /\
  ~ In "q"%string names' /\ (forall n k b, lookup v' n = Some (ESlice k "q" b 0) -> ~ In n names').
Proof. exact Verif.Proofs.InsertCases.at_tolerance. Qed.
Print Assumptions C25_at_tolerance_refuted.

(** a thick element that starts at the end of the line *)
Theorem C25_after_end_refuted : exists v rows what stol tol ref, 0 < stol /\ stol <= tol /\
  line_length v (map snd rows) = Some (2 + (3 + 0)) /\ what = [mkPlace "m" (Some 5) None (Some AStart) None] /\
  (exists l, s_length v "m" = Some l /\ 0 < l) /\ Verif.Model.Insert.insert v rows what stol tol ref = None.
Proof. exact Verif.Proofs.InsertCases.at_the_end. Qed.
Print Assumptions C25_after_end_refuted.

(** a thick element in a drift and over a marker, and a thin one in a replica of a magnet *)
Definition ex_env : env := mkEnv
  [("q", EOwn (CMagnet true) 4 1); ("d", EOwn CDrift 2 0); ("m", marker); ("r", EReplica "q"); ("x", EOwn (CMagnet true) 1 7); ("k", EOwn CThin 0 3)]%string 0 [].
Definition ex_rows : list (string * string) := [("q", "q"); ("d::0", "d"); ("m", "m"); ("r", "r"); ("d::1", "d")]%string.
Definition ex_what : list place :=
  [mkPlace "k" (Some 8) None None None; mkPlace "x" (Some 6) None (Some AEnd) None]%string.
Example C25_case : exists old L tab s f, cache_ok ex_env /\ edge_names_ok ex_env /\ NoDup (map fst ex_rows)
  /\ bounds ex_env 0 (map snd ex_rows) = Some old /\ line_length ex_env (map snd ex_rows) = Some L /\ crows ex_env 0 ex_rows = Some tab
  /\ Verif.Model.Composer.resolve (len_of ex_env) ACenter (line_places (map snd ex_rows) tab ++ ex_what) = Some (s, f)
  /\ insertable (1 # 100) L old (requested (len_of ex_env) (map pl_name ex_what) (skipn (List.length ex_rows) s))
  /\ option_map snd (Verif.Model.Insert.insert ex_env ex_rows ex_what (1 # 1000) (1 # 100) (fun i => i))
     = Some ["q"; "d..0"; "x"; "m"; "r_entry"; "r..entry_map"; "r..0"; "k"; "r..1"; "r..exit_map"; "r_exit"; "d"]%string.
Proof.
  do 5 eexists. split; [apply Verif.Proofs.InsertCases.ex_env_ok|]. split; [apply Verif.Proofs.InsertCases.ex_env_ok|].
  split; [repeat (constructor; [cbn; intuition congruence|]); constructor|]. split; [reflexivity|]. split; [reflexivity|]. split; [reflexivity|]. split; [vm_compute; reflexivity|].
  split; [|vm_compute; reflexivity]. split; [|split].
  - intros n u w [H|[H|[]]]; injection H as <- <- <-; repeat split; vm_compute; discriminate.
  - intros [|[|[|i]]] [|[|[|j]]] x y Hx Hy Ne; try discriminate; try congruence; injection Hx as <-; injection Hy as <-; unfold disjoint, Qle; vm_compute; intuition discriminate.
  - apply Verif.Proofs.InsertCases.well_apartb_ok. vm_compute. reflexivity.
Qed.

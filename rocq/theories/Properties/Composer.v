(** C20-C23: lines built from placed components. *)
From Coq Require Import ZArith QArith Qabs List Bool String Arith Permutation Lia Lqa.
From Verif.Model Require Import Composer.
From Verif.Spec Require Import Composer.
From Verif.Proofs Require Composer Ordering OrderingTop Gaps ComposerCases.
Import ListNotations.
Local Open Scope nat_scope.

(** * C20 *)
Theorem C20_placement_equations len refer ps s f :
  resolve len refer ps = Some (s, f) -> solves len refer ps s /\ List.length f = List.length ps.
Proof. exact (Verif.Proofs.Composer.resolve_solves len refer ps s f). Qed.
Print Assumptions C20_placement_equations.

Theorem C20_nested_lines len refer pre names p a post s f :
  names <> [] -> pl_at p = Some a ->
  resolve len refer (flatten_components len refer (pre ++ CPlaceLine names p :: post)) = Some (s, f) ->
  let ps := flatten_components len refer (pre ++ CPlaceLine names p :: post) in
  let k := List.length (flatten_components len refer pre) in
  exists sk, nth_error s k = Some sk
  /\ (match pl_from p with
      | None => sk + anchor_offset (dflt refer (pl_anchor p)) (line_length len names) == a
      | Some from => exists j q sj, nth_error ps j = Some q /\ pl_name q = from /\ nth_error s j = Some sj
          /\ sk + anchor_offset (dflt refer (pl_anchor p)) (line_length len names)
             == sj + anchor_offset (dflt refer (pl_from_anchor p)) (len from) + a
      end)%Q
  /\ forall j, j < List.length names -> exists sj, nth_error s (k + j) = Some sj
     /\ (sj == sk + line_length len (firstn j names))%Q.
Proof. exact (Verif.Proofs.Composer.nested_line len refer pre names p a post s f). Qed.
Print Assumptions C20_nested_lines.

Definition ex_len (n : string) : Q := if String.eqb n "q" then 2 else if String.eqb n "b" then 4 else 0.
Definition ex_places : list place :=
  [ mkPlace "q" (Some 3%Q) (Some "b"%string) (Some AStart) (Some AEnd);
    mkPlace "b" (Some 10%Q) None None None;
    plain "m"%string;
    mkPlace "n" (Some 0%Q) (Some "q"%string) None (Some AStart) ].
Example C20_case : option_map fst (resolve ex_len ACenter ex_places)
  = Some [ (10 - 4 / 2 + 4 + 3 - 0)%Q; (10 - 4 / 2)%Q; (10 - 4 / 2 + 4)%Q; (10 - 4 / 2 + 4 + 3 - 0 + 0 + 0 - 0 / 2)%Q ].
Proof. vm_compute. reflexivity. Qed.

(** * C21 *)
Theorem C21_terminates len refer ps fuel : List.length ps < fuel ->
  resolve_loop len refer fuel ps (resolve_init ps) = resolve_loop len refer (S (List.length ps)) ps (resolve_init ps)
  /\ resolve_loop len refer fuel ps (resolve_init ps) <> None.
Proof.
  exact (Verif.Proofs.Composer.terminates len refer ps fuel).
Qed.
Print Assumptions C21_terminates.

Theorem C21_fails_exactly len refer ps : forallb place_ok ps = true ->
  (resolve len refer ps = None <-> exists i, i < List.length ps /\ ~ grounded ps i).
Proof. exact (Verif.Proofs.Composer.resolve_iff len refer ps). Qed.
Print Assumptions C21_fails_exactly.

Theorem C21_malformed_rejected len refer ps : forallb place_ok ps = false -> resolve len refer ps = None.
Proof. exact (Verif.Proofs.Composer.resolve_rejects len refer ps). Qed.
Print Assumptions C21_malformed_rejected.

Theorem C21_unique_solution len refer ps s f s' :
  NoDup (map pl_name ps) -> resolve len refer ps = Some (s, f) -> solves len refer ps s' ->
  List.length s = List.length s' /\ forall i x y, nth_error s i = Some x -> nth_error s' i = Some y -> (x == y)%Q.
Proof. exact (Verif.Proofs.Composer.unique_solution len refer ps s f s'). Qed.
Print Assumptions C21_unique_solution.

Theorem C21_order_independent len refer ps ps' s f s' f' :
  NoDup (map pl_name ps) -> (forall p, In p ps -> pl_at p <> None) -> Permutation ps ps' ->
  resolve len refer ps = Some (s, f) -> resolve len refer ps' = Some (s', f') ->
  forall i i' p, nth_error ps i = Some p -> nth_error ps' i' = Some p ->
  exists x x', nth_error s i = Some x /\ nth_error s' i' = Some x' /\ (x == x')%Q.
Proof. exact (Verif.Proofs.Composer.order_same len refer ps ps' s f s' f'). Qed.
Print Assumptions C21_order_independent.

Theorem C21_failure_order_independent len refer ps ps' : (forall p, In p ps -> pl_at p <> None) -> Permutation ps ps' ->
  resolve len refer ps = None -> resolve len refer ps' = None.
Proof. exact (Verif.Proofs.Composer.order_none len refer ps ps'). Qed.
Print Assumptions C21_failure_order_independent.

Theorem C21_duplicate_names_refuted : exists len refer ps ps' s f s' f' i i' p x x',
  Permutation ps ps' /\ (forall q, In q ps -> pl_at q <> None)
  /\ resolve len refer ps = Some (s, f) /\ resolve len refer ps' = Some (s', f')
  /\ nth_error ps i = Some p /\ nth_error ps' i' = Some p
  /\ nth_error s i = Some x /\ nth_error s' i' = Some x' /\ ~ (x == x')%Q.
Proof. exact Verif.Proofs.ComposerCases.duplicate_names. Qed.
Print Assumptions C21_duplicate_names_refuted.

Definition ex_circular : list place :=
  [ mkPlace "q" (Some 3%Q) (Some "b"%string) None None; mkPlace "b" (Some 10%Q) (Some "q"%string) None None; mkPlace "m" (Some 1%Q) None None None ].
Example C21_case : resolve ex_len ACenter ex_circular = None /\ forallb place_ok ex_circular = true
  /\ NoDup (map pl_name ex_places) /\ grounded ex_places 3.
Proof.
  split; [vm_compute; reflexivity|]. split; [reflexivity|]. split; [repeat constructor; cbn; intuition discriminate|].
  eapply g_from with (j := 0); try reflexivity. eapply g_from with (j := 1); try reflexivity. eapply g_abs; reflexivity.
Qed.

(** * C22 *)
Theorem C22_permutation tol allow ps res : sort_places tol allow ps = Some res -> Permutation ps res.
Proof. exact (Verif.Proofs.OrderingTop.sort_permutation tol allow ps res). Qed.
Print Assumptions C22_permutation.

Theorem C22_sorted tol ps : (0 < tol)%Q -> clear_cut tol (map rp_center ps) -> forall allow res,
  sort_places tol allow ps = Some res -> forall a b, before res a b -> (rp_center a - rp_center b < tol)%Q.
Proof. exact (Verif.Proofs.OrderingTop.sort_sorted tol ps). Qed.
Print Assumptions C22_sorted.

Theorem C22_explicit_requests tol ps : (0 < tol)%Q -> clear_cut tol (map rp_center ps) -> NoDup (map rp_index ps) -> thick_apart tol ps ->
  forall allow res p q an, sort_places tol allow ps = Some res -> In p ps -> In q ps -> tied tol p q ->
  rp_from p = Some (rp_index q) -> rp_from_anchor p = Some an ->
  match an with AEnd => before res q p | _ => before res p q end.
Proof. exact (Verif.Proofs.OrderingTop.sort_explicit tol ps). Qed.
Print Assumptions C22_explicit_requests.

Theorem C22_other_ties tol ps : (0 < tol)%Q -> clear_cut tol (map rp_center ps) -> NoDup (map rp_index ps) -> thick_apart tol ps ->
  forall allow res p q m n, sort_places tol allow ps = Some res -> In p ps -> In q ps -> tied tol p q ->
  pull tol ps p m -> pull tol ps q n -> m < n \/ (m = n /\ before ps p q) -> before res p q.
Proof. exact (Verif.Proofs.OrderingTop.sort_pull tol ps). Qed.
Print Assumptions C22_other_ties.

Theorem C22_fails_exactly_on_circular_requests tol ps : (0 < tol)%Q -> clear_cut tol (map rp_center ps) -> NoDup (map rp_index ps) -> thick_apart tol ps ->
  forall allow, no_self ps -> allow = true \/ refs_exist ps ->
  (sort_places tol allow ps <> None <-> forall p, In p ps -> settled tol ps p).
Proof. exact (Verif.Proofs.OrderingTop.sort_success tol ps). Qed.
Print Assumptions C22_fails_exactly_on_circular_requests.

Theorem C22_chains_of_close_elements_refuted : exists tol ps res a b,
  NoDup (map rp_index ps) /\ (0 < tol)%Q /\ sort_places tol false ps = Some res /\ before res a b
  /\ (tol <= rp_center a - rp_center b)%Q.
Proof. exact Verif.Proofs.ComposerCases.chain_not_sorted. Qed.
Print Assumptions C22_chains_of_close_elements_refuted.

(** a magnet, with markers m2 after m1, m1 at the end of the magnet, m0 before m1, and one more *)
Definition ex_rows : list rplace :=
  [ mkRP 0 0 false 3 (Some 1) (Some AEnd); mkRP 1 0 false 3 (Some 2) (Some AEnd); mkRP 2 2 true 1 None None;
    mkRP 3 0 false 3 (Some 1) (Some AStart); mkRP 4 0 false 3 None None ].
Example C22_case : option_map (map rp_index) (sort_places (1 # 1000) false ex_rows) = Some [2; 3; 1; 0; 4]
  /\ clear_cut (1 # 1000) (map rp_center ex_rows) /\ NoDup (map rp_index ex_rows) /\ thick_apart (1 # 1000) ex_rows
  /\ no_self ex_rows /\ refs_exist ex_rows /\ pull (1 # 1000) ex_rows (mkRP 1 0 false 3 (Some 2) (Some AEnd)) 0.
Proof.
  split; [vm_compute; reflexivity|]. split.
  { intros a b c Ha Hb Hc. cbn [map ex_rows In] in *.
    destruct Ha as [<-|[<-|[<-|[<-|[<-|[]]]]]], Hb as [<-|[<-|[<-|[<-|[<-|[]]]]]], Hc as [<-|[<-|[<-|[<-|[<-|[]]]]]];
      unfold Qle, Qlt; vm_compute; intros; try reflexivity; exfalso; auto. }
  split; [repeat constructor; cbn; intuition discriminate|]. split.
  { intros p q Hp Hq T Ne. destruct Hp as [<-|[<-|[<-|[<-|[<-|[]]]]]]; try discriminate;
      destruct Hq as [<-|[<-|[<-|[<-|[<-|[]]]]]]; try reflexivity. exfalso. apply Ne. reflexivity. }
  split; [intros p [<-|[<-|[<-|[<-|[<-|[]]]]]]; discriminate|]. split.
  { intros p f H E. exists (nth f ex_rows (mkRP 9 0 false 0 None None)).
    destruct H as [<-|[<-|[<-|[<-|[<-|[]]]]]]; try discriminate; injection E as <-; cbn; tauto. }
  apply (pull_up _ _ _ (mkRP 2 2 true 1 None None)); [cbn; tauto|reflexivity|reflexivity].
Qed.

(** * C23 *)
Theorem C23_generated_line tol : (0 <= tol)%Q -> forall length ps l, generate tol length ps = Some l ->
  map fst (elems_at 0 l) = map rp_index ps
  /\ (forall d, In (PDrift d) l -> (tol < d)%Q)
  /\ (forall k p, nth_error ps k = Some p ->
      exists s, nth_error (elems_at 0 l) k = Some (rp_index p, s)
      /\ (Qabs (s - rp_start p) <= inject_Z (Z.of_nat (S k)) * tol)%Q)
  /\ match length with
     | Some len => (0 <= len -> Qabs (pieces_length l - len) <= inject_Z (Z.of_nat (S (List.length ps))) * tol)%Q
     | None => ps <> [] -> (Qabs (pieces_length l - last_end ps) <= inject_Z (Z.of_nat (List.length ps)) * tol)%Q
     end.
Proof. exact (Verif.Proofs.Gaps.generate_line tol). Qed.
Print Assumptions C23_generated_line.

Theorem C23_exact_positions tol : (0 <= tol)%Q -> forall length ps l, generate tol length ps = Some l ->
  (forall g, In g (gaps 0 ps) -> (g == 0 \/ tol < g)%Q) ->
  forall k p, nth_error ps k = Some p -> exists s, nth_error (elems_at 0 l) k = Some (rp_index p, s) /\ (s == rp_start p)%Q.
Proof. exact (Verif.Proofs.Gaps.generate_exact tol). Qed.
Print Assumptions C23_exact_positions.

Theorem C23_overlaps_rejected tol : (0 <= tol)%Q -> forall length ps, generate tol length ps = None <->
  (exists g, In g (gaps 0 ps) /\ (g < - tol)%Q) \/ (ps <> [] /\ exists l, length = Some l /\ (l + tol < last_end ps)%Q).
Proof. exact (Verif.Proofs.Gaps.generate_fails tol). Qed.
Print Assumptions C23_overlaps_rejected.

Theorem C23_validation_agrees tol : (0 <= tol)%Q -> forall length ps,
  validate_geometry tol length true ps = true <-> generate tol length ps <> None.
Proof. exact (Verif.Proofs.Gaps.validate_agrees tol). Qed.
Print Assumptions C23_validation_agrees.

Theorem C23_built_line tol : (0 <= tol)%Q -> forall len thick refer stol length places l,
  build len thick refer stol tol length places = Some l ->
  exists s, solves len refer places s
  /\ Permutation (map fst (elems_at 0 l)) (seq 0 (List.length places))
  /\ (forall i x, In (i, x) (elems_at 0 l) -> exists si, nth_error s i = Some si
      /\ (Qabs (x - si) <= inject_Z (Z.of_nat (List.length places)) * tol)%Q)
  /\ (forall d, In (PDrift d) l -> (tol < d)%Q)
  /\ match length with
     | Some want => (0 <= want -> Qabs (pieces_length l - want) <= inject_Z (Z.of_nat (S (List.length places))) * tol)%Q
     | None => True
     end.
Proof. exact (Verif.Proofs.Gaps.build_line tol). Qed.
Print Assumptions C23_built_line.

Theorem C23_sequence_of_names len refer tol length names l : (0 <= tol)%Q -> build_names len tol length names = Some l ->
  exists s, solves len refer (map plain names) s /\ elems_at 0 l = combine (seq 0 (List.length names)) s
  /\ (forall d, In (PDrift d) l -> (tol < d)%Q)
  /\ match length with Some want => (Qabs (pieces_length l - want) <= tol)%Q | None => True end.
Proof. exact (Verif.Proofs.Gaps.names_line len refer tol length names l). Qed.
Print Assumptions C23_sequence_of_names.

Theorem C23_single_tolerance_refuted : exists tol ps l k p s,
  (0 < tol)%Q /\ generate tol None ps = Some l /\ nth_error ps k = Some p
  /\ nth_error (elems_at 0 l) k = Some (rp_index p, s) /\ (tol < Qabs (s - rp_start p))%Q.
Proof. exact Verif.Proofs.ComposerCases.tolerance_accumulates. Qed.
Print Assumptions C23_single_tolerance_refuted.

Example C23_case : match build ex_len (fun n => String.eqb n "q" || String.eqb n "b") ACenter (1 # 1000) (1 # 1000) (Some 30%Q) ex_places with
  | Some l => map fst (elems_at 0 l) = [1; 2; 3; 0] /\ (pieces_length l == 30)%Q
              /\ match elems_at 0 l with (_, s1) :: _ => (s1 == 8)%Q | [] => False end
  | None => False
  end.
Proof. vm_compute. repeat split. Qed.

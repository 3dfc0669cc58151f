(** Lemmas about the monitors of individual particles. *)
From Coq Require Import ZArith List Bool Lia.
From Verif.Model Require Import Monitors.
From Verif.Spec Require Import Monitors.
Import ListNotations.
Local Open Scope Z_scope.

Section M.
Context {D : Type}.
Implicit Types (p : mpart D) (ps : list (mpart D)).

(** * Cells of a buffer *)
Lemma last_cons (sel : mpart D -> bool) p ps :
  last_such sel (p :: ps)
  = match last_such sel ps with Some d => Some d | None => if sel p then Some (m_data p) else None end.
Proof.
  unfold last_such. cbn [filter]. destruct (sel p); [cbn [rev]|]; destruct (rev (filter sel ps)); reflexivity.
Qed.

Lemma last_ext (s1 s2 : mpart D -> bool) ps :
  (forall p, In p ps -> s1 p = s2 p) -> last_such s1 ps = last_such s2 ps.
Proof.
  induction ps as [|p ps IH]; intro H; [reflexivity|]. rewrite !last_cons.
  rewrite IH by (intros; apply H; right; assumption). rewrite (H p) by (left; reflexivity). reflexivity.
Qed.

Lemma last_none (sel : mpart D -> bool) ps : (forall p, In p ps -> sel p = false) -> last_such sel ps = None.
Proof.
  induction ps as [|p ps IH]; intro H; [reflexivity|]. rewrite last_cons, IH, (H p); try reflexivity.
  - left; reflexivity.
  - intros q Hq; apply H; right; exact Hq.
Qed.

Lemma last_filter (f sel : mpart D -> bool) ps :
  (forall p, sel p = true -> f p = true) -> last_such sel ps = last_such sel (filter f ps).
Proof.
  intro H. induction ps as [|p ps IH]; [reflexivity|]. cbn [filter]. rewrite last_cons.
  destruct (f p) eqn:F.
  - rewrite last_cons, IH. reflexivity.
  - destruct (sel p) eqn:Sp; [apply H in Sp; congruence|]. rewrite IH. destruct (last_such sel (filter f ps)); reflexivity.
Qed.

Lemma cell_app {V} (a b : list (Z * V)) k :
  cell (a ++ b) k = match cell b k with Some x => Some x | None => cell a k end.
Proof.
  induction a as [|[i v] a IH]; cbn [cell app]; [destruct (cell b k); reflexivity|].
  rewrite IH. destruct (cell b k); reflexivity.
Qed.

(** A buffer filled by an action on each particle. *)
Definition hits (a : mpart D -> option Z) (k : Z) (p : mpart D) : bool :=
  match a p with Some i => i =? k | None => false end.

Definition writes_of (a : mpart D -> option Z) (p : mpart D) : list (Z * D) :=
  match a p with Some i => [(i, m_data p)] | None => [] end.

Lemma cell_flat (a : mpart D -> option Z) ps k :
  cell (flat_map (writes_of a) ps) k = last_such (hits a k) ps.
Proof.
  induction ps as [|p ps IH]; [reflexivity|]. cbn [flat_map]. rewrite cell_app, IH, last_cons.
  unfold writes_of, hits. destruct (a p); reflexivity.
Qed.

(** * ParticlesMonitor *)
Definition pm_at (c : pm) (bt : bool) (p : mpart D) : option Z :=
  match pm_act c bt p with Store k => Some k | _ => None end.

Lemma block_flat cpu c bt ps :
  (cpu = true -> forall p, In p ps -> pm_act c bt p <> Leave) ->
  pm_block cpu c bt ps = flat_map (writes_of (pm_at c bt)) ps.
Proof.
  induction ps as [|p ps IH]; intro H; [reflexivity|]. cbn [pm_block flat_map].
  assert (IH' : pm_block cpu c bt ps = flat_map (writes_of (pm_at c bt)) ps).
  { apply IH. intros Hc q Hq. apply H; [exact Hc|right; exact Hq]. }
  unfold writes_of at 1, pm_at at 1. destruct (pm_act c bt p) eqn:A.
  - exact IH'.
  - destruct cpu; [destruct (H eq_refl p (or_introl eq_refl) A)|]. exact IH'.
  - cbn [app]. rewrite IH'. reflexivity.
Qed.

Lemma track_flat cpu c bt passes :
  (cpu = true -> forall p, In p (concat passes) -> pm_act c bt p <> Leave) ->
  pm_track cpu c bt passes = flat_map (writes_of (pm_at c bt)) (concat passes).
Proof.
  unfold pm_track. induction passes as [|b passes IH]; intro H; [reflexivity|].
  cbn [flat_map concat]. rewrite flat_map_app, IH, block_flat; [reflexivity| |].
  - intros Hc p Hp. apply H; [exact Hc|]. cbn [concat]. apply in_or_app; left; exact Hp.
  - intros Hc p Hp. apply H; [exact Hc|]. cbn [concat]. apply in_or_app; right; exact Hp.
Qed.

(** The decoded meaning of a stored index. *)
Definition frame (c : pm) (t : Z) : Z := if pm_nrep c =? 1 then 0 else (t - pm_start c) / pm_period c.
Definition column (c : pm) (t : Z) : Z := t - pm_start c - frame c t * pm_period c * (if pm_nrep c =? 1 then 0 else 1).

Ltac zb := repeat match goal with
  | H : (_ && _) = true |- _ => apply andb_true_iff in H; destruct H
  | H : (_ <=? _) = true |- _ => apply Z.leb_le in H
  | H : (_ <? _) = true |- _ => apply Z.ltb_lt in H
  | H : (_ =? _) = true |- _ => apply Z.eqb_eq in H
  | H : (_ <=? _) = false |- _ => apply Z.leb_gt in H
  | H : (_ <? _) = false |- _ => apply Z.ltb_ge in H
  | H : (_ =? _) = false |- _ => apply Z.eqb_neq in H
  end.

Lemma act_store c bt p k :
  pm_ok c -> pm_act c bt p = Store k ->
  exists f j, 0 <= f < pm_nrep c /\ 0 <= j < pm_stop c - pm_start c
    /\ pm_column c f j = Some (time_of c p)
    /\ pm_id0 c <= m_id p < pm_id1 c
    /\ k = (f * (pm_id1 c - pm_id0 c) + (m_id p - pm_id0 c)) * (pm_stop c - pm_start c) + j.
Proof.
  intros (H1 & H2 & H3 & H4). unfold pm_act, time_of, pm_column.
  destruct (negb (pm_ebe c) && bt); [discriminate|].
  set (t := if pm_ebe c then m_elem p else m_turn p).
  destruct (pm_nrep c =? 1) eqn:E1.
  - destruct ((pm_start c <=? t) && (t <? pm_stop c)) eqn:E2; [|discriminate].
    destruct ((m_id p <? pm_id1 c) && (pm_id0 c <=? m_id p)) eqn:E3; [|discriminate].
    intros [= <-]. zb. exists 0, (t - pm_start c). rewrite E1. repeat split; try lia. f_equal; lia.
  - destruct (1 <? pm_nrep c) eqn:E2; [|discriminate].
    destruct (t <? pm_start c) eqn:E3; [discriminate|].
    zb. assert (Hp : 0 < pm_period c) by lia.
    rewrite Z.quot_div_nonneg by lia.
    set (f := (t - pm_start c) / pm_period c).
    destruct ((f <? pm_nrep c) && (pm_start c + f * pm_period c <=? t)
              && (t <? pm_stop c + f * pm_period c)) eqn:E4; [|discriminate].
    destruct ((m_id p <? pm_id1 c) && (pm_id0 c <=? m_id p)) eqn:E5; [|discriminate].
    intros [= <-]. zb.
    assert (Hf : 0 <= f) by (apply Z.div_pos; lia).
    pose proof (Z.mul_succ_div_gt (t - pm_start c) (pm_period c) Hp) as Hgt. fold f in Hgt.
    exists f, (t - pm_start c - f * pm_period c).
    rewrite (proj2 (Z.ltb_lt _ _)) by lia. repeat split; try lia. f_equal; lia.
Qed.

Lemma act_hit c bt p f j id :
  pm_ok c -> pm_ebe c = true \/ bt = false ->
  0 <= f < pm_nrep c -> 0 <= j < pm_stop c - pm_start c -> pm_id0 c <= id < pm_id1 c ->
  m_id p = id -> pm_column c f j = Some (time_of c p) ->
  pm_act c bt p = Store ((f * (pm_id1 c - pm_id0 c) + (id - pm_id0 c)) * (pm_stop c - pm_start c) + j).
Proof.
  intros (H1 & H2 & H3 & H4) Hb Hf Hj Hi <-. unfold pm_act, time_of, pm_column.
  replace (negb (pm_ebe c) && bt) with false by (destruct Hb as [->| ->]; destruct (pm_ebe c); reflexivity).
  set (t := if pm_ebe c then m_elem p else m_turn p).
  destruct (pm_nrep c =? 1) eqn:E1; intro Hc.
  - injection Hc as Hc. zb. rewrite <- Hc. assert (f = 0) by lia. subst f.
    rewrite (proj2 (Z.leb_le _ _)) by lia. rewrite (proj2 (Z.ltb_lt _ _)) by lia. cbn [andb].
    rewrite (proj2 (Z.ltb_lt (m_id p) _)) by lia. rewrite (proj2 (Z.leb_le _ (m_id p))) by lia. cbn [andb].
    f_equal. lia.
  - zb. destruct (j <? pm_period c) eqn:E2; [|discriminate]. injection Hc as Hc. zb.
    rewrite (proj2 (Z.ltb_lt 1 _)) by lia.
    rewrite (proj2 (Z.ltb_ge t _)) by lia.
    assert (Hq : Z.quot (t - pm_start c) (pm_period c) = f).
    { rewrite Z.quot_div_nonneg by lia. symmetry. apply Z.div_unique with j; lia. }
    rewrite Hq. rewrite (proj2 (Z.ltb_lt f _)) by lia. rewrite (proj2 (Z.leb_le _ t)) by lia.
    rewrite (proj2 (Z.ltb_lt t _)) by lia. cbn [andb].
    rewrite (proj2 (Z.ltb_lt (m_id p) _)) by lia. rewrite (proj2 (Z.leb_le _ (m_id p))) by lia. cbn [andb].
    f_equal. lia.
Qed.

Lemma rm_unique N C f i j f' i' j' :
  0 <= i < N -> 0 <= i' < N -> 0 <= j < C -> 0 <= j' < C ->
  (f * N + i) * C + j = (f' * N + i') * C + j' -> f = f' /\ i = i' /\ j = j'.
Proof.
  intros Hi Hi' Hj Hj' Q.
  destruct (Z.div_mod_unique C (f * N + i) (f' * N + i') j j') as [E1 E2]; try lia.
  destruct (Z.div_mod_unique N f f' i i'); try lia.
Qed.

Lemma rm_bounds M N w f i j : 0 <= f < M -> 0 <= i < N -> 0 <= j < w -> 0 <= (f * N + i) * w + j < M * N * w.
Proof.
  intros.
  assert (0 <= f * N) by (apply Z.mul_nonneg_nonneg; lia).
  assert ((f + 1) * N <= M * N) by (apply Z.mul_le_mono_nonneg_r; lia).
  assert (0 <= (f * N + i) * w) by (apply Z.mul_nonneg_nonneg; lia).
  assert ((f * N + i + 1) * w <= (M * N) * w) by (apply Z.mul_le_mono_nonneg_r; lia).
  lia.
Qed.

Lemma column_inj c f j f' j' t :
  pm_ok c -> 0 <= f < pm_nrep c -> 0 <= f' < pm_nrep c -> 0 <= j -> 0 <= j' ->
  pm_column c f j = Some t -> pm_column c f' j' = Some t -> f = f' /\ j = j'.
Proof.
  intros (H1 & H2 & H3 & H4) Hf Hf' Hj Hj'. unfold pm_column. destruct (pm_nrep c =? 1) eqn:E; intros Q Q'.
  - zb. injection Q as Q. injection Q' as Q'. lia.
  - zb. destruct (j <? pm_period c) eqn:F1; [|discriminate]. destruct (j' <? pm_period c) eqn:F2; [|discriminate].
    zb. injection Q as Q. injection Q' as Q'.
    destruct (Z.div_mod_unique (pm_period c) f f' j j'); lia.
Qed.

(** Writes stay inside the buffer. *)
Lemma act_bounds c bt p k : pm_ok c -> pm_act c bt p = Store k -> 0 <= k < pm_n_records c.
Proof.
  intros H E. destruct (act_store c bt p k H E) as (f & j & Hf & Hj & _ & Hi & ->).
  destruct H as (H1 & H2 & H3 & H4). rewrite H3. clear - H1 Hf Hj Hi.
  set (N := pm_id1 c - pm_id0 c) in *. set (i := m_id p - pm_id0 c) in *. set (w := pm_stop c - pm_start c) in *.
  pose proof (rm_bounds (pm_nrep c) N w f i j ltac:(lia) ltac:(lia) ltac:(lia)). lia.
Qed.

Lemma act_inj c bt p (q : mpart D) k :
  pm_ok c -> pm_act c bt p = Store k -> pm_act c bt q = Store k ->
  m_id p = m_id q /\ time_of c p = time_of c q.
Proof.
  intros H E F. destruct (act_store c bt p k H E) as (f & j & Hf & Hj & Hc & Hi & Hk).
  destruct (act_store c bt q k H F) as (f' & j' & Hf' & Hj' & Hc' & Hi' & Hk').
  rewrite Hk in Hk'. apply rm_unique in Hk'; try lia. destruct Hk' as (-> & Hi2 & ->).
  split; [lia|]. congruence.
Qed.

Lemma no_leave c bt p :
  pm_ebe c = true \/ bt = false -> pm_nrep c = 1 \/ pm_start c <= time_of c p -> pm_act c bt p <> Leave.
Proof.
  intros Hb H. unfold pm_act, time_of in *.
  replace (negb (pm_ebe c) && bt) with false by (destruct Hb as [->| ->]; destruct (pm_ebe c); reflexivity).
  set (t := if pm_ebe c then m_elem p else m_turn p) in *.
  destruct (pm_nrep c =? 1) eqn:E1.
  - repeat match goal with |- (if ?b then _ else _) <> _ => destruct b end; discriminate.
  - zb. rewrite (proj2 (Z.ltb_ge t _)) by lia.
    destruct (1 <? pm_nrep c); [|discriminate].
    repeat match goal with |- context [if ?b then _ else _] => destruct b end; discriminate.
Qed.

Definition pm_sel (c : pm) (k id j : Z) (p : mpart D) : bool :=
  match pm_column c k j with
  | Some t => (m_id p =? id) && (time_of c p =? t)
  | None => false
  end.

Lemma read_back cpu c bt passes k id j :
  pm_ok c -> pm_ebe c = true \/ bt = false ->
  (cpu = false \/ pm_nrep c = 1 \/ forall p, In p (concat passes) -> pm_start c <= time_of c p) ->
  0 <= k < pm_nrep c -> pm_id0 c <= id < pm_id1 c -> 0 <= j < pm_stop c - pm_start c ->
  pm_get c (pm_track cpu c bt passes) k (id - pm_id0 c) j
  = Some (match pm_column c k j with
          | Some t => last_such (fun p => (m_id p =? id) && (time_of c p =? t)) (concat passes)
          | None => None end).
Proof.
  intros H Hb Hl Hk Hi Hj. pose proof H as (H1 & H2 & H3 & H4).
  assert (Hrows : (if pm_nrep c =? 1 then pm_n_records c / (pm_stop c - pm_start c)
                   else pm_n_records c / (pm_stop c - pm_start c) / pm_nrep c) = pm_id1 c - pm_id0 c).
  { rewrite H3. destruct (pm_nrep c =? 1) eqn:E; zb.
    - rewrite E, Z.mul_1_r, Z.mul_comm, Z.div_mul; lia.
    - rewrite <- Z.mul_assoc, (Z.mul_comm (pm_stop c - pm_start c)), Z.div_mul by lia.
      rewrite Z.div_mul; lia. }
  unfold pm_get. rewrite Hrows.
  rewrite (proj2 (Z.eqb_neq _ 0)) by lia.
  rewrite !(proj2 (Z.leb_le _ _)), !(proj2 (Z.ltb_lt _ _)) by lia. cbn [andb]. f_equal.
  rewrite track_flat.
  2:{ intros Hc p Hp. apply no_leave; [exact Hb|]. destruct Hl as [Hl|[Hl|Hl]]; [congruence|left; exact Hl|right; auto]. }
  rewrite cell_flat.
  transitivity (last_such (pm_sel c k id j) (concat passes)).
  - apply last_ext. intros p _. unfold hits, pm_at, pm_sel.
    destruct (pm_column c k j) as [t|] eqn:Ec.
    + destruct ((m_id p =? id) && (time_of c p =? t)) eqn:E.
      * zb. rewrite (act_hit c bt p k j id H Hb Hk Hj Hi); [apply Z.eqb_refl|assumption|congruence].
      * destruct (pm_act c bt p) eqn:A; try reflexivity.
        destruct (act_store c bt p at_ H A) as (f & j' & Hf & Hj' & Hc & Hi' & ->).
        match goal with |- (?a =? ?b) = _ => destruct (a =? b) eqn:Q end; [|reflexivity]. zb. apply rm_unique in Q; try lia.
        destruct Q as (-> & Q2 & ->). rewrite Ec in Hc. injection Hc as Hc.
        rewrite <- Hc, Z.eqb_refl, andb_true_r in E. zb. lia.
    + destruct (pm_act c bt p) eqn:A; try reflexivity.
      destruct (act_store c bt p at_ H A) as (f & j' & Hf & Hj' & Hc & Hi' & ->).
      match goal with |- (?a =? ?b) = _ => destruct (a =? b) eqn:Q end; [|reflexivity]. zb. apply rm_unique in Q; try lia.
      destruct Q as (-> & Q2 & ->). congruence.
  - unfold pm_sel. destruct (pm_column c k j); [reflexivity|]. apply last_none. reflexivity.
Qed.

Lemma init_ok start stop id0 id1 ebe rep c :
  start < stop -> match rep with Some (n, p) => n = 1 \/ (1 < n /\ 0 < p) | None => True end ->
  pm_init start stop id0 id1 ebe (option_map fst rep) (option_map snd rep) = Some c ->
  pm_ok c /\ pm_start c = start /\ pm_stop c = stop /\ pm_id0 c = id0 /\ pm_id1 c = id1 /\ pm_ebe c = ebe
  /\ pm_nrep c = match rep with Some (n, _) => n | None => 1 end.
Proof.
  intros Hs Hr. unfold pm_init. destruct (id1 - id0 <? 0) eqn:E; [discriminate|]. zb.
  destruct rep as [[n q]|]; cbn; intros [= <-]; unfold pm_ok; cbn; repeat split; try lia.
Qed.

Lemma fold_min l : forall x, fold_left Z.min l x <= x /\ (forall i, In i l -> fold_left Z.min l x <= i).
Proof.
  induction l as [|a l IH]; intro x; cbn [fold_left]; [split; [lia|intros i []]|].
  destruct (IH (Z.min x a)) as [A B]. split; [lia|]. intros i [->|Hi]; [lia|auto].
Qed.
Lemma fold_max l : forall x, x <= fold_left Z.max l x /\ (forall i, In i l -> i <= fold_left Z.max l x).
Proof.
  induction l as [|a l IH]; intro x; cbn [fold_left]; [split; [lia|intros i []]|].
  destruct (IH (Z.max x a)) as [A B]. split; [lia|]. intros i [->|Hi]; [lia|auto].
Qed.

Lemma get_monitor_ok ids n :
  ids <> [] -> 0 < n ->
  exists c, get_monitor ids n = Some c /\ pm_ok c /\ pm_ebe c = false /\ pm_nrep c = 1
  /\ pm_start c = 0 /\ pm_stop c = n /\ forall i, In i ids -> pm_id0 c <= i < pm_id1 c.
Proof.
  intros Hn Hp. destruct ids as [|i r]; [congruence|]. cbn [get_monitor].
  destruct (fold_min r i) as [A B]. destruct (fold_max r i) as [A' B'].
  unfold pm_init. rewrite (proj2 (Z.ltb_ge _ _)) by lia.
  eexists. split; [reflexivity|]. cbn. unfold pm_ok. cbn. repeat split; try lia.
  - destruct H as [->|H]; [lia|auto].
  - destruct H as [->|H]; [lia|]. specialize (B' _ H). lia.
Qed.

Lemma get_monitor_tbt cpu ids n passes id t :
  ids <> [] -> 0 < n -> In id ids -> 0 <= t < n ->
  exists c, get_monitor ids n = Some c
  /\ pm_get c (pm_track cpu c false passes) 0 (id - pm_id0 c) t
     = Some (last_such (fun p => (m_id p =? id) && (m_turn p =? t)) (concat passes)).
Proof.
  intros Hn Hp Hid Ht. destruct (get_monitor_ok ids n Hn Hp) as (c & Hc & Hok & He & Hr & H0 & H1 & Hin).
  exists c. split; [exact Hc|]. rewrite read_back; auto; try lia.
  unfold pm_column, time_of. rewrite Hr, He, H0. cbn [Z.eqb Pos.eqb]. rewrite Z.add_0_l. reflexivity.
Qed.

Lemma get_monitor_ebe_ok cpu ids L passes id e bt :
  ids <> [] -> 0 <= L -> In id ids -> 0 <= e <= L ->
  exists c, get_monitor_ebe ids L = Some c
  /\ pm_get c (pm_track cpu c bt passes) 0 (id - pm_id0 c) e
     = Some (last_such (fun p => (m_id p =? id) && (m_elem p =? e)) (concat passes)).
Proof.
  intros Hn Hp Hid Ht. destruct (get_monitor_ok ids (L + 1)) as (c & Hc & Hok & He & Hr & H0 & H1 & Hin); auto; try lia.
  unfold get_monitor_ebe. rewrite Hc.
  eexists. split; [reflexivity|]. rewrite read_back; cbn; auto; try lia.
  unfold pm_column, time_of. cbn. rewrite Hr, H0. cbn [Z.eqb Pos.eqb]. rewrite Z.add_0_l. reflexivity.
Qed.

(** Outside a supported mode the monitor stays empty. *)
Lemma backtrack_empty cpu c passes : pm_ebe c = false -> pm_track cpu c true passes = [] :> list (Z * D).
Proof.
  intro H. unfold pm_track. induction passes as [|b passes IH]; [reflexivity|]. cbn [flat_map]. rewrite IH, app_nil_r.
  induction b as [|p b IHb]; [reflexivity|]. cbn [pm_block]. unfold pm_act. rewrite H. cbn [negb andb].
  destruct cpu; [reflexivity|exact IHb].
Qed.

(** * LastTurnsMonitor *)
Definition lt_off (c : lt) (p : mpart D) : list (Z * Z) :=
  match lt_act c p with Some (ip, o, v) => [(ip, u32 o)] | None => [] end.
Definition lt_wr (c : lt) (p : mpart D) : list (Z * (Z * D)) :=
  match lt_act c p with Some (ip, o, v) => [(lt_nlast c * ip + o, v)] | None => [] end.

Lemma lt_flat c ps : lt_track c ps = (flat_map (lt_off c) ps, flat_map (lt_wr c) ps).
Proof.
  induction ps as [|p ps IH]; [reflexivity|]. cbn [lt_track flat_map]. rewrite IH.
  replace (lt_off c p) with (match lt_act c p with Some (ip, o, v) => [(ip, u32 o)] | None => [] end) by reflexivity.
  replace (lt_wr c p) with (match lt_act c p with Some (ip, o, v) => [(lt_nlast c * ip + o, v)] | None => [] end) by reflexivity.
  destruct (lt_act c p) as [[[ip o] v]|]; reflexivity.
Qed.

(** Last value given by [f] along a list. *)
Fixpoint lastv {V} (f : mpart D -> option V) (ps : list (mpart D)) : option V :=
  match ps with
  | [] => None
  | p :: r => match lastv f r with Some v => Some v | None => f p end
  end.

Lemma cell_lastv {V} (w : mpart D -> list (Z * V)) (f : mpart D -> option V) k ps :
  (forall p, cell (w p) k = f p) -> cell (flat_map w ps) k = lastv f ps.
Proof.
  intro H. induction ps as [|p ps IH]; [reflexivity|]. cbn [flat_map lastv]. rewrite cell_app, IH, H. reflexivity.
Qed.

Lemma lastv_filter {V} (g : mpart D -> bool) (f : mpart D -> option V) ps :
  (forall p, g p = false -> f p = None) -> lastv f ps = lastv f (filter g ps).
Proof.
  intro H. induction ps as [|p ps IH]; [reflexivity|]. cbn [lastv filter]. destruct (g p) eqn:E.
  - cbn [lastv]. rewrite IH. reflexivity.
  - rewrite IH, (H p E). destruct (lastv f (filter g ps)); reflexivity.
Qed.

Lemma lastv_none {V} (f : mpart D -> option V) a h :
  consecutive a h -> (forall p, In p h -> a <= m_turn p < a + Z.of_nat (length h) -> f p = None) -> lastv f h = None.
Proof.
  revert a. induction h as [|p h IH]; intros a Hc H; [reflexivity|]. cbn [lastv consecutive length] in *. destruct Hc as [Hp Hc].
  rewrite (IH (a + 1) Hc). 2:{ intros q Hq Ht. apply H; [right; exact Hq|lia]. }
  apply H; [left; reflexivity|lia].
Qed.

Lemma lastv_at {V} (f : mpart D -> option V) a h t v :
  consecutive a h -> a <= t < a + Z.of_nat (length h) ->
  (forall p, nth_error h (Z.to_nat (t - a)) = Some p -> m_turn p = t -> f p = Some v) ->
  (forall p, In p h -> t < m_turn p < a + Z.of_nat (length h) -> f p = None) -> lastv f h = Some v.
Proof.
  revert a. induction h as [|p h IH]; intros a Hc Ht Hv Hn; [cbn in Ht; lia|].
  cbn [lastv consecutive length] in *. destruct Hc as [Hp Hc].
  destruct (Z.eq_dec t a) as [->|Hne].
  - rewrite (lastv_none f (a + 1) h Hc).
    + apply Hv; [rewrite Z.sub_diag; reflexivity|exact Hp].
    + intros q Hq Hq2. apply Hn; [right; exact Hq|lia].
  - rewrite (IH (a + 1) Hc); [reflexivity|lia| |].
    + intros q Hq Hq2. apply Hv; [|exact Hq2].
      replace (Z.to_nat (t - a)) with (S (Z.to_nat (t - (a + 1)))) by lia. exact Hq.
    + intros q Hq Hq2. apply Hn; [right; exact Hq|lia].
Qed.

Lemma consecutive_in a h p : consecutive a h -> In p h -> a <= m_turn p < a + Z.of_nat (length h).
Proof.
  revert a. induction h as [|q h IH]; intros a Hc Hin; [destruct Hin|]. cbn [consecutive length] in *. destruct Hc as [Hq Hc].
  destruct Hin as [->|Hin]; [lia|]. specialize (IH _ Hc Hin). lia.
Qed.

Lemma consecutive_nth a h n p : consecutive a h -> nth_error h n = Some p -> m_turn p = a + Z.of_nat n.
Proof.
  revert a n. induction h as [|q h IH]; intros a n Hc Hn; [destruct n; discriminate|]. cbn [consecutive] in Hc. destruct Hc as [Hq Hc].
  destruct n as [|n]; cbn in Hn; [injection Hn as <-; lia|]. rewrite (IH _ _ Hc Hn). lia.
Qed.

Lemma u32_small z : 0 <= z < 2 ^ 32 -> u32 z = z.
Proof. intro. apply Z.mod_small. assumption. Qed.

(** The action on a particle of the range. *)
Lemma lt_act_in c p :
  lt_ok c -> 0 <= m_turn p -> lt_id0 c <= m_id p < lt_id0 c + lt_num c ->
  lt_act c p = if m_turn p mod lt_every c =? 0
               then Some (m_id p - lt_id0 c, (m_turn p / lt_every c) mod lt_nlast c, (u32 (m_turn p), m_data p))
               else None.
Proof.
  intros (H1 & H2 & H3) Ht Hi. unfold lt_act.
  rewrite (proj2 (Z.leb_le 0 _)) by lia. rewrite (proj2 (Z.leb_le _ (m_id p))) by lia.
  rewrite (proj2 (Z.ltb_lt (m_id p) _)) by lia. rewrite Z.rem_mod_nonneg by lia.
  rewrite Z.quot_div_nonneg by lia.
  assert (0 <= m_turn p / lt_every c) by (apply Z.div_pos; lia).
  rewrite Z.rem_mod_nonneg by lia. cbn [andb]. rewrite !andb_true_r. reflexivity.
Qed.

Lemma lt_act_some c p ip o v :
  lt_act c p = Some (ip, o, v) -> ip = m_id p - lt_id0 c /\ lt_id0 c <= m_id p < lt_id0 c + lt_num c /\ 0 <= m_turn p.
Proof. unfold lt_act. destruct (_ && _) eqn:E; [|discriminate]. intros [= <- _ _]. zb. lia. Qed.

Definition off_of (c : lt) (id : Z) (p : mpart D) : option Z :=
  if (m_id p =? id) && (m_turn p mod lt_every c =? 0) && (0 <=? m_turn p)
  then Some ((m_turn p / lt_every c) mod lt_nlast c) else None.
Definition val_of (c : lt) (id o : Z) (p : mpart D) : option (Z * D) :=
  if (m_id p =? id) && (m_turn p mod lt_every c =? 0) && (0 <=? m_turn p)
     && ((m_turn p / lt_every c) mod lt_nlast c =? o)
  then Some (u32 (m_turn p), m_data p) else None.

Lemma off_cell c id p :
  lt_ok c -> lt_id0 c <= id < lt_id0 c + lt_num c -> cell (lt_off c p) (id - lt_id0 c) = off_of c id p.
Proof.
  intros Hok Hid. pose proof Hok as (H1 & H2 & H3). unfold lt_off, off_of.
  destruct (lt_act c p) as [[[ip o] v]|] eqn:A.
  - destruct (lt_act_some _ _ _ _ _ A) as (Hip & Hr & Ht). rewrite (lt_act_in c p Hok Ht Hr) in A.
    destruct (m_turn p mod lt_every c =? 0); [|discriminate]. injection A as <- <- <-. cbn [cell].
    assert (0 <= (m_turn p / lt_every c) mod lt_nlast c < lt_nlast c) by (apply Z.mod_pos_bound; lia).
    rewrite u32_small by lia. rewrite (proj2 (Z.leb_le 0 _) Ht). rewrite !andb_true_r.
    destruct (m_id p =? id) eqn:E; zb.
    + subst. rewrite Z.eqb_refl. reflexivity.
    + rewrite (proj2 (Z.eqb_neq _ _)) by lia. reflexivity.
  - cbn [cell]. destruct ((m_id p =? id) && (m_turn p mod lt_every c =? 0) && (0 <=? m_turn p)) eqn:E; [|reflexivity].
    zb. rewrite lt_act_in in A by (auto; lia). rewrite H4 in A. cbn in A. discriminate.
Qed.

Lemma val_cell c id o p :
  lt_ok c -> lt_id0 c <= id < lt_id0 c + lt_num c -> 0 <= o < lt_nlast c ->
  cell (lt_wr c p) ((id - lt_id0 c) * lt_nlast c + o) = val_of c id o p.
Proof.
  intros Hok Hid Ho. pose proof Hok as (H1 & H2 & H3). unfold lt_wr, val_of.
  destruct (lt_act c p) as [[[ip o'] v]|] eqn:A.
  - destruct (lt_act_some _ _ _ _ _ A) as (Hip & Hr & Ht). rewrite (lt_act_in c p Hok Ht Hr) in A.
    destruct (m_turn p mod lt_every c =? 0); [|discriminate]. injection A as <- <- <-. cbn [cell].
    assert (Hb : 0 <= (m_turn p / lt_every c) mod lt_nlast c < lt_nlast c) by (apply Z.mod_pos_bound; lia).
    set (o'' := (m_turn p / lt_every c) mod lt_nlast c) in *.
    rewrite (proj2 (Z.leb_le 0 _) Ht). rewrite !andb_true_r.
    destruct (m_id p =? id) eqn:E; cbn [andb]; zb.
    + subst. destruct (o'' =? o) eqn:F; zb.
      * subst. rewrite (proj2 (Z.eqb_eq _ _)) by lia. reflexivity.
      * rewrite (proj2 (Z.eqb_neq _ _)) by lia. reflexivity.
    + rewrite (proj2 (Z.eqb_neq _ _)); [reflexivity|]. intro Q.
      destruct (Z.div_mod_unique (lt_nlast c) (m_id p - lt_id0 c) (id - lt_id0 c) o'' o); lia.
  - cbn [cell]. destruct ((m_id p =? id) && (m_turn p mod lt_every c =? 0) && (0 <=? m_turn p)) eqn:E; [|reflexivity].
    zb. rewrite lt_act_in in A by (auto; lia). rewrite H4 in A. cbn in A. discriminate.
Qed.

Lemma same_residue n x y : 0 < n -> x mod n = y mod n -> x < y -> x + n <= y.
Proof.
  intros Hn E H. pose proof (Z.div_mod x n ltac:(lia)) as Q1. pose proof (Z.div_mod y n ltac:(lia)) as Q2.
  rewrite E in Q1. set (q1 := x / n) in *. set (q2 := y / n) in *. assert (q1 < q2) by nia. nia.
Qed.

Lemma lt_mult e m m' : 0 < e -> m * e < m' * e -> m < m'.
Proof. nia. Qed.

Lemma lt_read c ps id h a j :
  lt_ok c -> lt_id0 c <= id < lt_id0 c + lt_num c -> history id ps = h -> h <> [] ->
  consecutive a h -> 0 <= a -> a + Z.of_nat (length h) <= 2 ^ 32 -> 0 <= j < lt_nlast c ->
  let b := a + Z.of_nat (length h) - 1 in
  let t := (b / lt_every c - (lt_nlast c - 1 - j)) * lt_every c in
  lt_get c (lt_track c ps) (id - lt_id0 c) j
  = if (a <=? t) && (t <=? b)
    then option_map (fun p => (t, m_data p)) (nth_error h (Z.to_nat (t - a))) else None.
Proof.
  intros Hok Hid Hh Hne Hc Ha Hm Hj b t. pose proof Hok as (H1 & H2 & H3).
  unfold lt_get. rewrite lt_flat. cbn [fst snd].
  rewrite (cell_lastv (lt_off c) (off_of c id)) by (intro; apply off_cell; auto).
  rewrite (lastv_filter (fun p => m_id p =? id)) by (intros p E; unfold off_of; rewrite E; reflexivity).
  fold (history id ps). rewrite Hh.
  assert (Hb0 : a <= b) by (destruct h; [congruence|cbn [length] in *; subst b; lia]).
  set (m0 := b / lt_every c) in *. set (e := lt_every c) in *. set (n := lt_nlast c) in *.
  pose proof (Z.mul_div_le b e H2) as Hd1. pose proof (Z.mul_succ_div_gt b e H2) as Hd2. fold m0 in Hd1, Hd2.
  assert (Hids : forall p, In p h -> m_id p = id).
  { intros p Hp. rewrite <- Hh in Hp. apply filter_In in Hp. destruct Hp as [_ Hp]. zb. exact Hp. }
  (* column of the buffer *)
  assert (Hoff : a <= m0 * e -> lastv (off_of c id) h = Some (m0 mod n)).
  { intro Hm0. apply (lastv_at _ a h (m0 * e)); [exact Hc|subst b; lia| |].
    - intros p Hp Ht. unfold off_of. rewrite (Hids p) by (eapply nth_error_In; exact Hp).
      rewrite Ht, Z.eqb_refl. fold e. rewrite Z.mod_mul by lia. rewrite Z.div_mul by lia.
      rewrite (proj2 (Z.leb_le 0 _)) by lia. reflexivity.
    - intros p Hp Ht. unfold off_of. fold e. destruct (m_turn p mod e =? 0) eqn:E; [|rewrite andb_false_r; reflexivity].
      zb. exfalso. assert (Q : m_turn p = e * (m_turn p / e)) by (pose proof (Z.div_mod (m_turn p) e); lia).
      assert (m0 < m_turn p / e) by nia. assert (m_turn p / e <= m0) by (apply Z.div_le_mono; subst b; lia). lia. }
  assert (Hnone : m0 * e < a -> forall o, lastv (val_of c id o) h = None).
  { intros Hm0 o. apply (lastv_none _ a); [exact Hc|]. intros p Hp Ht. unfold val_of. fold e.
    destruct (m_turn p mod e =? 0) eqn:E; [|rewrite andb_false_r; reflexivity].
    zb. exfalso. assert (Q : m_turn p = e * (m_turn p / e)) by (pose proof (Z.div_mod (m_turn p) e); lia).
    assert (m_turn p / e <= m0) by (apply Z.div_le_mono; subst b; lia). nia. }
  set (col := (j + (match lastv (off_of c id) h with Some o => o | None => 0 end + 1)) mod n).
  assert (Hcol : 0 <= col < n) by (apply Z.mod_pos_bound; lia).
  rewrite (cell_lastv (lt_wr c) (val_of c id col)) by (intro; apply val_cell; auto).
  rewrite (lastv_filter (fun p => m_id p =? id)) by (intros p E; unfold val_of; rewrite E; reflexivity).
  fold (history id ps). rewrite Hh.
  destruct (Z_lt_le_dec (m0 * e) a) as [Hm0|Hm0].
  { rewrite (Hnone Hm0). rewrite (proj2 (Z.leb_gt a t)); [reflexivity|]. subst t. nia. }
  specialize (Hoff Hm0). unfold col in *. rewrite Hoff in *. clear col.
  set (col := (j + (m0 mod n + 1)) mod n) in *.
  assert (Hres : col = (m0 - (n - 1 - j)) mod n).
  { unfold col. replace (j + (m0 mod n + 1)) with (m0 mod n + (j + 1)) by lia.
    rewrite Z.add_mod_idemp_l by lia.
    replace (m0 - (n - 1 - j)) with (m0 + (j + 1) + (-1) * n) by lia. rewrite Z.mod_add by lia. reflexivity. }
  destruct (a <=? t) eqn:Et; cbn [andb].
  - zb. assert (Htb : t <= b) by (subst t; nia). rewrite (proj2 (Z.leb_le t b) Htb).
    destruct (nth_error h (Z.to_nat (t - a))) as [p0|] eqn:Hn.
    2:{ apply nth_error_None in Hn. subst b. lia. }
    cbn [option_map]. apply (lastv_at _ a h t); [exact Hc|subst b; lia| |].
    + intros p Hp Ht. rewrite Hn in Hp. injection Hp as <-. unfold val_of.
      rewrite (Hids p0) by (eapply nth_error_In; exact Hn). rewrite Ht, Z.eqb_refl. fold e n.
      unfold t at 1 2 3. rewrite Z.mod_mul by lia. rewrite Z.div_mul by lia.
      rewrite (proj2 (Z.leb_le 0 _)) by (fold t; lia). rewrite Hres, !Z.eqb_refl. cbn [andb].
      rewrite u32_small by (subst b; lia). reflexivity.
    + intros p Hp Ht. unfold val_of. fold e n. destruct (m_turn p mod e =? 0) eqn:E; [|rewrite andb_false_r; reflexivity].
      destruct ((m_turn p / e) mod n =? col) eqn:F; [|rewrite andb_false_r; reflexivity].
      zb. exfalso. assert (Q : m_turn p = e * (m_turn p / e)) by (pose proof (Z.div_mod (m_turn p) e); lia).
      set (m' := m_turn p / e) in *. assert (m' <= m0) by (apply Z.div_le_mono; subst b; lia).
      assert (m0 - (n - 1 - j) < m') by (apply (lt_mult e); [exact H2|]; fold t; lia).
      rewrite Hres in F. symmetry in F. apply same_residue in F; lia.
  - zb. apply (lastv_none _ a); [exact Hc|]. intros p Hp Ht. unfold val_of. fold e n.
    destruct (m_turn p mod e =? 0) eqn:E; [|rewrite andb_false_r; reflexivity].
    destruct ((m_turn p / e) mod n =? col) eqn:F; [|rewrite andb_false_r; reflexivity].
    zb. exfalso. assert (Q : m_turn p = e * (m_turn p / e)) by (pose proof (Z.div_mod (m_turn p) e); lia).
    set (m' := m_turn p / e) in *. assert (m' <= m0) by (apply Z.div_le_mono; subst b; lia).
    assert (m0 - (n - 1 - j) < m') by (apply (lt_mult e); [exact H2|]; fold t; lia).
    rewrite Hres in F. symmetry in F. apply same_residue in F; lia.
Qed.

(** * MultiElementMonitor *)
Lemma me_bounds c p k : me_ok c -> me_act c p = Some k ->
  let '(t, i, o) := k in let '(nt, ni, no) := me_shape c in 0 <= t < nt /\ 0 <= i < ni /\ 0 <= o < no.
Proof.
  intros (H1 & H2 & H3) A. unfold me_act in A. destruct (_ && _) eqn:E; [|discriminate]. zb.
  set (st := if m_elem p <? Z.of_nat (length (me_map c)) then nth (Z.to_nat (m_elem p)) (me_map c) (-1) else -1) in *.
  destruct (0 <=? st) eqn:F; [|discriminate]. zb. injection A as <-. cbn.
  assert (st < me_nobs c).
  { unfold st in *. destruct (m_elem p <? _); [|lia].
    destruct (nth_in_or_default (Z.to_nat (m_elem p)) (me_map c) (-1)) as [Hin|Hd]; [|lia].
    rewrite Forall_forall in H3. apply H3 in Hin. lia. }
  lia.
Qed.

Lemma combine_cell l : forall k x, cell (combine l (map Z.of_nat (seq k (length l)))) x = None -> ~ In x l.
Proof.
  induction l as [|a l IH]; intros k x H; [intros []|]. cbn [length seq map combine cell] in H.
  destruct (cell _ x) eqn:E; [discriminate|]. destruct (a =? x) eqn:F; [discriminate|]. zb.
  intros [->|Hin]; [lia|]. exact (IH _ _ E Hin).
Qed.

Lemma combine_cell_some l : forall k x v, NoDup l -> cell (combine l (map Z.of_nat (seq k (length l)))) x = Some v ->
  exists n, v = Z.of_nat (k + n) /\ nth_error l n = Some x.
Proof.
  induction l as [|a l IH]; intros k x v Hn H; [discriminate|]. cbn [length seq map combine cell] in H. inversion Hn; subst.
  destruct (cell _ x) eqn:E.
  - injection H as <-. destruct (IH _ _ _ H3 E) as (n & -> & Hn'). exists (S n). split; [f_equal; lia|exact Hn'].
  - destruct (a =? x) eqn:F; [|discriminate]. zb. injection H as <-. exists 0%nat. split; [f_equal; lia|cbn; congruence].
Qed.

Lemma nth_map_seq {A} (f : nat -> A) len i d : (i < len)%nat -> nth i (map f (seq 0 len)) d = f i.
Proof.
  intro H. rewrite nth_indep with (d' := f 0%nat) by (rewrite map_length, seq_length; exact H).
  rewrite map_nth, seq_nth by exact H. reflexivity.
Qed.

(** The mapping of element numbers to observation numbers. *)
Lemma mapping_iff len obs e k :
  NoDup obs -> Forall (fun i => 0 <= i < Z.of_nat len) obs -> 0 <= e -> 0 <= k ->
  (if e <? Z.of_nat (length (me_mapping len obs)) then nth (Z.to_nat e) (me_mapping len obs) (-1) else -1) = k
  <-> nth_error obs (Z.to_nat k) = Some e.
Proof.
  intros Hn Hf He Hk. unfold me_mapping at 1. rewrite map_length, seq_length.
  destruct (e <? Z.of_nat len) eqn:E; zb.
  - unfold me_mapping. rewrite nth_map_seq by lia. rewrite Z2Nat.id by lia.
    destruct (cell _ e) as [v|] eqn:C.
    + destruct (combine_cell_some obs 0 e v Hn C) as (n & -> & Hx). split.
      * intros <-. rewrite Nat2Z.id. exact Hx.
      * intro Hy. assert (n < length obs)%nat by (apply nth_error_Some; congruence).
        rewrite (proj1 (NoDup_nth_error obs) Hn n (Z.to_nat k) H (eq_trans Hx (eq_sym Hy))). cbn. lia.
    + split; [lia|]. intro Hy. apply nth_error_In in Hy. destruct (combine_cell obs 0 e C Hy).
  - split; [lia|]. intro Hy. apply nth_error_In in Hy. rewrite Forall_forall in Hf. apply Hf in Hy. lia.
Qed.

Lemma mapping_ok len obs : NoDup obs -> Forall (fun k => -1 <= k < Z.of_nat (length obs)) (me_mapping len obs).
Proof.
  intro Hn. unfold me_mapping. rewrite Forall_forall. intros k Hk. apply in_map_iff in Hk. destruct Hk as (i & Hk & _).
  destruct (cell _ (Z.of_nat i)) as [v|] eqn:C; [|lia]. destruct (combine_cell_some obs 0 _ v Hn C) as (n & -> & Hx).
  assert (n < length obs)%nat by (apply nth_error_Some; congruence). lia.
Qed.

Lemma py_index_pos n i : 0 <= i < n -> py_index n i = Some i.
Proof.
  intro H. unfold py_index. rewrite (proj2 (Z.leb_le _ _)) by lia. rewrite (proj2 (Z.ltb_lt i n)) by lia.
  rewrite (proj2 (Z.ltb_ge i 0)) by lia. reflexivity.
Qed.

Lemma me_read ids num_turns len obs ps :
  ids <> [] -> 0 <= num_turns -> NoDup obs -> Forall (fun i => 0 <= i < Z.of_nat len) obs ->
  (forall p, In p ps -> 0 <= m_elem p) ->
  exists c, get_multi_element_monitor ids num_turns len obs = Some c
  /\ (forall p k, me_act c p = Some k -> 0 <= me_index c k < num_turns * (me_id1 c - me_id0 c) * Z.of_nat (length obs))
  /\ forall t id k e, 0 <= t < num_turns -> In id ids -> nth_error obs k = Some e ->
     me_get c (me_track c ps) t id (Z.of_nat k)
     = Some (last_such (fun p => (m_turn p =? t) && (m_id p =? id) && (m_elem p =? e)) ps).
Proof.
  intros Hn Ht Hd Hf Hpos. destruct ids as [|i0 r]; [congruence|]. cbn [get_multi_element_monitor].
  destruct (fold_min r i0) as [A B]. destruct (fold_max r i0) as [A' B'].
  eexists. split; [reflexivity|].
  set (c := mkMEM _ _ _ _ _ _). assert (Hok : me_ok c).
  { unfold me_ok, c; cbn. split; [lia|]. split; [lia|]. apply mapping_ok. exact Hd. }
  split.
  - intros p [[t i] o] Ha. pose proof (me_bounds c p _ Hok Ha) as Hb. cbn in Hb. cbn. apply rm_bounds; lia.
  - intros t id k e Htt Hid Hk.
    assert (Hkl : (k < length obs)%nat) by (apply nth_error_Some; congruence).
    assert (Hir : me_id0 c <= id < me_id1 c).
    { unfold c; cbn. destruct Hid as [<-|Hid]; [lia|]. specialize (B _ Hid). specialize (B' _ Hid). lia. }
    unfold me_get. replace (me_start c) with 0 by reflexivity. replace (me_stop c) with num_turns by reflexivity.
    replace (me_nobs c) with (Z.of_nat (length obs)) by reflexivity.
    rewrite !py_index_pos by lia. f_equal.
    change (me_track c ps) with (flat_map (fun p => match me_act c p with Some k => [(me_index c k, m_data p)] | None => [] end) ps).
    transitivity (cell (flat_map (writes_of (fun p => option_map (me_index c) (me_act c p))) ps) (me_index c (t - 0, id - me_id0 c, Z.of_nat k))).
    { f_equal. apply flat_map_ext. intro p. unfold writes_of. destruct (me_act c p); reflexivity. }
    rewrite cell_flat. apply last_ext. intros p Hp. unfold hits.
    destruct (me_act c p) as [[[t' i'] o']|] eqn:Ha; cbn [option_map].
    + pose proof (me_bounds c p _ Hok Ha) as Hb. cbn in Hb. unfold me_act in Ha.
      destruct (_ && _) eqn:E in Ha; [|discriminate]. destruct (0 <=? _) eqn:F in Ha; [|discriminate].
      injection Ha as <- <- Ho. replace (me_start c) with 0 in * by reflexivity.
      assert (Hm : o' = Z.of_nat k <-> m_elem p = e).
      { pose proof (mapping_iff len obs (m_elem p) o' Hd Hf (Hpos p Hp)) as M.
        unfold c in Ho; cbn [me_map] in Ho. apply M in Ho; [|lia]. split.
        - intros ->. rewrite Nat2Z.id in Ho. congruence.
        - intros <-. assert (Z.to_nat o' < length obs)%nat by (apply nth_error_Some; congruence).
          rewrite <- (proj1 (NoDup_nth_error obs) Hd (Z.to_nat o') k H (eq_trans Ho (eq_sym Hk))). lia. }
      clear Ho.
      destruct ((m_turn p =? t) && (m_id p =? id) && (m_elem p =? e)) eqn:G.
      * zb. apply Hm in H0. subst. apply Z.eqb_refl.
      * apply Z.eqb_neq. intro Q. cbn in Q. apply rm_unique in Q; try lia; try (unfold c in *; cbn in *; lia).
    + destruct ((m_turn p =? t) && (m_id p =? id) && (m_elem p =? e)) eqn:G; [|reflexivity]. zb. exfalso.
      unfold me_act in Ha. replace (me_start c) with 0 in Ha by reflexivity. replace (me_stop c) with num_turns in Ha by reflexivity.
      rewrite !(proj2 (Z.leb_le _ _)), !(proj2 (Z.ltb_lt _ _)) in Ha by lia. cbn [andb] in Ha.
      assert (Hm : (if m_elem p <? Z.of_nat (length (me_map c)) then nth (Z.to_nat (m_elem p)) (me_map c) (-1) else -1) = Z.of_nat k).
      { apply (mapping_iff len obs (m_elem p) (Z.of_nat k) Hd Hf); [auto|lia|]. rewrite Nat2Z.id. congruence. }
      rewrite Hm in Ha. rewrite (proj2 (Z.leb_le _ _)) in Ha by lia. discriminate.
Qed.
End M.

From Coq Require Import ZArith QArith Qabs List Bool String Arith Lia Lqa.
From Verif.Model Require Import Composer.
From Verif.Spec Require Import Composer.
From Verif.Model Require Import Line Slicing Insert.
From Verif.Spec Require Import Line Slicing LineEdit Insert.
From Verif.Proofs Require Import Insert InsertTop.
From Verif.Proofs Require Composer.
Import ListNotations.
Local Open Scope Q_scope.

(** * Insertions relative to elements of the line *)
Lemma crows_nth v : forall rows s tab i nn n, crows v s rows = Some tab -> nth_error rows i = Some (nn, n) ->
  exists r x y, nth_error tab i = Some r /\ s_length v n = Some (cr_len r) /\
    line_length v (firstn i (map snd rows)) = Some x /\ line_length v (firstn (S i) (map snd rows)) = Some y /\
    cr_start r == s + x /\ y == x + cr_len r.
Proof.
  induction rows as [|[mm m] rows IH]; intros s tab [|i] nn n C H; try discriminate; cbn [crows] in C; cbn [nth_error] in H.
  - injection H as -> ->. destruct (resolve v n) as [[t e]|]; [|discriminate]. destruct (s_length v n) as [l|] eqn:El; [|discriminate].
    destruct (crows v (s + l) rows); [|discriminate]. injection C as <-.
    do 3 eexists. cbn [map snd firstn line_length nth_error]. rewrite El.
    split; [reflexivity|]. cbn [cr_len cr_start]. repeat split; lra.
  - destruct (resolve v m) as [[t e]|]; [|discriminate]. destruct (s_length v m) as [l|] eqn:El; [|discriminate].
    destruct (crows v (s + l) rows) as [tab'|] eqn:C'; [|discriminate]. injection C as <-.
    destruct (IH (s + l) tab' i nn n C' H) as (r & x & y & A & B & X & Y & E1 & E2).
    exists r, (l + x), (l + y).
    split; [exact A|]. split; [exact B|].
    split; [cbn [map snd firstn line_length]; rewrite El, X; reflexivity|].
    split; [change (firstn (S (S i)) (map snd ((mm, m) :: rows))) with (m :: firstn (S i) (map snd rows)); cbn [line_length]; rewrite El, Y; reflexivity|].
    split; lra.
Qed.

Theorem relative v rows what tab s f j p n a u :
  crows v 0 rows = Some tab ->
  Verif.Model.Composer.resolve (len_of v) ACenter (line_places (map snd rows) tab ++ what) = Some (s, f) ->
  nth_error what j = Some p -> pl_from p = Some n -> pl_at p = Some a -> nth_error (skipn (List.length rows) s) j = Some u ->
  exists ref,
    u + anchor_offset (dflt ACenter (pl_anchor p)) (len_of v (pl_name p)) ==
    ref + anchor_offset (dflt ACenter (pl_from_anchor p)) (len_of v n) + a /\
    ((exists i b, at_place v (map snd rows) i n ref b) \/
     (exists j' q, nth_error what j' = Some q /\ pl_name q = n /\ nth_error (skipn (List.length rows) s) j' = Some ref)).
Proof.
  intros C R Hp Hf Ha Hu.
  assert (Lt : List.length rows = List.length tab).
  { clear - C. revert tab C. generalize 0. induction rows as [|[nn m] rows IH]; intros z tab C; cbn [crows] in C.
    - injection C as <-. reflexivity.
    - destruct (resolve v m) as [[t e]|]; [|discriminate]. destruct (s_length v m); [|discriminate].
      destruct (crows v (z + q) rows) eqn:E; [|discriminate]. injection C as <-. cbn. f_equal. eapply IH. exact E. }
  assert (Lp : List.length (line_places (map snd rows) tab) = List.length rows).
  { rewrite line_places_length; rewrite map_length; [reflexivity | exact Lt]. }
  destruct (Verif.Proofs.Composer.resolve_solves _ _ _ _ _ R) as ((Ls & So) & _).
  destruct (So (List.length rows + j)%nat p) as (si & H1 & H2).
  { rewrite nth_error_app2 by lia. replace (_ + j - _)%nat with j by lia. exact Hp. }
  rewrite InsertTop.nth_skipn in Hu. rewrite Hu in H1. injection H1 as <-.
  unfold holds in H2. rewrite Ha, Hf in H2. destruct H2 as (k & q & sk & Hk & Hq & Hs & E).
  exists sk. split; [exact E|].
  destruct (Nat.lt_ge_cases k (List.length rows)) as [Lk|Lk].
  - left. exists k.
    destruct (nth_error rows k) as [[nn m]|] eqn:Hr; [|apply nth_error_None in Hr; lia].
    destruct (crows_nth v rows 0 tab k nn m C Hr) as (r & x & y & A & B & X & Y & E1 & E2).
    assert (Eq : q = mkPlace m (Some (cr_start r + cr_len r / 2)) None None None).
    { rewrite nth_error_app1 in Hk by lia. unfold line_places in Hk.
      assert (Hc : nth_error (combine (map snd rows) tab) k = Some (m, r)).
      { clear - Hr A. revert tab k A Hr. induction rows as [|[a b] rows IH]; intros [|t tab] [|k] A Hr; try discriminate; cbn in *.
        - congruence.
        - apply IH; assumption. }
      rewrite (map_nth_error _ k _ Hc) in Hk. injection Hk as <-. reflexivity. }
    subst q. cbn [pl_name] in Hq. subst m.
    destruct (So k (mkPlace n (Some (cr_start r + cr_len r / 2)) None None None)) as (sk' & K1 & K2); [exact Hk|].
    rewrite Hs in K1. injection K1 as <-.
    unfold holds in K2. cbn [pl_at pl_from pl_anchor pl_name dflt anchor_offset] in K2.
    assert (El : len_of v n = cr_len r) by (unfold len_of; rewrite B; reflexivity). rewrite El in K2.
    exists y. split.
    + rewrite nth_error_map, Hr. reflexivity.
    + exists x, y. split; [exact X|]. split; [exact Y|]. split; [rewrite map_length; exact Lk|]. split; lra.
  - right. exists (k - List.length rows)%nat, q. split.
    + rewrite nth_error_app2 in Hk by lia. rewrite Lp in Hk. exact Hk.
    + split; [exact Hq|]. rewrite InsertTop.nth_skipn. replace (_ + _)%nat with k by lia. exact Hs.
Qed.

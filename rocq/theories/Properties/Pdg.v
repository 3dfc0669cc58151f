(** C70: particle numbers, names and masses. *)
From Coq Require Import List NArith ZArith QArith String.
From Verif.Model Require Import Pdg.
From Verif.Spec Require Import Pdg.
From Verif.Proofs Require Pdg PdgCases.
Import ListNotations.
Local Open Scope Z_scope.

(** Every ion: its number gives back its protons and nucleons, and the number is found again from each
    of the names the ion is given. *)
Theorem C70_ion : forall a z, 1 <= z <= 118 -> 2 <= a <= 999 -> z <= a ->
  exists i, get_pdg_id_ion a z = Ret i
  /\ is_ion i = (z <? a)
  /\ forall long subs, exists name,
       get_properties_from_pdg_id i long subs = Ret (z, a, z, name)
       /\ get_pdg_id_from_name name = Ret i.
Proof. exact Pdg.ion_round_trip. Qed.
Print Assumptions C70_ion.

(** Every way of writing an ion: symbol or full name of the element, the mass number before or after it (or
    on both sides), any case, superscripts, separators anywhere. *)
Theorem C70_spelling : forall name z e d1 d2 a,
  names_element z e -> written name (d1 ++ e ++ d2) -> decimal a (d1 ++ d2) -> 0 < a ->
  get_pdg_id_from_name name = get_pdg_id_ion a z.
Proof. exact Pdg.any_spelling. Qed.
Print Assumptions C70_spelling.

(** The particles of the table and their antiparticles are found again from each of their names... *)
Theorem C70_known : forall i long subs, known i -> exists name,
  get_name_from_pdg_id i long subs = Ret name /\ get_pdg_id_from_name name = Ret i.
Proof. exact Pdg.known_round_trip. Qed.
Print Assumptions C70_known.

(** ...and from each accepted alternative. *)
Theorem C70_alias : forall i q names n s, In (i, (q, names)) pdg_table -> In n names ->
  Forall2 same_char s n -> get_pdg_id_from_name s = Ret i.
Proof. exact Pdg.alias. Qed.
Print Assumptions C70_alias.

(** Case and superscripts never matter. *)
Theorem C70_case_insensitive : forall s s', Forall2 same_char s s' ->
  get_pdg_id_from_name s = get_pdg_id_from_name s'.
Proof. exact Pdg.from_name_same. Qed.
Print Assumptions C70_case_insensitive.

(** Opposite numbers are antiparticles. *)
Theorem C70_antiparticle : forall i long subs q a z name,
  get_properties_from_pdg_id i long subs = Ret (q, a, z, name) ->
  exists name', get_properties_from_pdg_id (- i) long subs = Ret (- q, a, - z, name').
Proof. exact Pdg.antiparticle. Qed.
Print Assumptions C70_antiparticle.

Theorem C70_antiparticle_mass : forall i m, i <= 1000000000 ->
  get_mass_from_pdg_id i true None = Ret m -> get_mass_from_pdg_id (- i) true None = Ret m.
Proof. exact Pdg.antiparticle_mass. Qed.
Print Assumptions C70_antiparticle_mass.

(** A charged particle is found again from its mass and its charge. *)
Theorem C70_mass : forall i m long subs q a z name,
  get_mass_from_pdg_id i true None = Ret m ->
  get_properties_from_pdg_id i long subs = Ret (q, a, z, name) -> q <> 0 ->
  i <= 1000000000 \/ get_pdg_id_ion a z = Ret i ->
  get_pdg_id_from_mass_charge m q (1 # 1000) = Ret i.
Proof. exact Pdg.mass_round_trip. Qed.
Print Assumptions C70_mass.

(** The name given to an anti-ion is not understood. *)
Theorem C70_anti_ion_refuted : exists i name,
  get_name_from_pdg_id i true true = Ret name /\ get_pdg_id_from_name name = ValueError.
Proof. exact (ex_intro _ _ (ex_intro _ _ PdgCases.anti_lead)). Qed.
Print Assumptions C70_anti_ion_refuted.

(** A mass number of four digits runs into the proton number. *)
Theorem C70_digits_refuted : exists a z i q a' z' name, 2 <= a /\ z <= a /\
  get_pdg_id_ion a z = Ret i /\ get_properties_from_pdg_id i true true = Ret (q, a', z', name) /\ z' <> z.
Proof.
  exists 1000, 100. do 5 eexists. split; [discriminate|]. split; [discriminate|].
  split; [exact (proj1 PdgCases.big_ion)|]. split; [exact (proj2 PdgCases.big_ion)|discriminate].
Qed.
Print Assumptions C70_digits_refuted.

(** The name of an excited ion is that of its ground state. *)
Theorem C70_isomer_refuted : exists i name j, get_name_from_pdg_id i true true = Ret name
  /\ get_pdg_id_from_name name = Ret j /\ j <> i.
Proof.
  exact (ex_intro _ _ (ex_intro _ _ (ex_intro _ _ (conj (proj1 PdgCases.isomer)
    (conj (proj2 PdgCases.isomer) (fun H : 1000721770 = 1000721772 => ltac:(discriminate H))))))).
Qed.
Print Assumptions C70_isomer_refuted.

(** A nucleus without neutrons has the number of an ion and is not recognised as one. *)
Theorem C70_is_ion_refuted : exists a z i, get_pdg_id_ion a z = Ret i /\ is_ion i = false.
Proof. exact (ex_intro _ _ (ex_intro _ _ (ex_intro _ _ PdgCases.bare))). Qed.
Print Assumptions C70_is_ion_refuted.

(** The mass of an ion which is not tabulated is estimated, that of its antiparticle is not. *)
Theorem C70_anti_mass_refuted : exists i, (exists m, get_mass_from_pdg_id i true None = Ret m)
  /\ get_mass_from_pdg_id (- i) true None = ValueError.
Proof. exact (ex_intro _ 1000922380 (conj (ex_intro _ _ (proj1 PdgCases.anti_uranium))
  (proj2 PdgCases.anti_uranium))). Qed.
Print Assumptions C70_anti_mass_refuted.

(** A neutral antiparticle is taken for its particle. *)
Theorem C70_neutral_refuted : exists i m j, get_mass_from_pdg_id i true None = Ret m
  /\ get_pdg_id_from_mass_charge m 0 (1 # 1000) = Ret j /\ j <> i.
Proof.
  exact (ex_intro _ (-311) (ex_intro _ _ (ex_intro _ 311
    (conj (proj1 PdgCases.antikaon) (conj (proj2 PdgCases.antikaon)
      (fun H : 311 = -311 => ltac:(discriminate H))))))).
Qed.
Print Assumptions C70_neutral_refuted.

Import Verif.Proofs.PdgCases.

Example C70_case :
  map get_pdg_id_from_name [u8 "Pb208"; u8 "pb 208"; u8 "208Pb"; u8 "LEAD_208"; u8 "²⁰⁸Pb"; u8 "lead-208"]
  = repeat (Ret 1000822080) 6
  /\ get_pdg_id_from_name (u8 "Astatine-210") = Ret 1000852100.
Proof. exact (conj lead_names (proj1 astatine)). Qed.

Example C70_mass_case : get_mass_from_pdg_id 1000822080 true None = Ret (193729024800 # 1)
  /\ get_pdg_id_from_mass_charge (193729024800 # 1) 82 (1 # 1000) = Ret 1000822080.
Proof. exact lead_mass. Qed.

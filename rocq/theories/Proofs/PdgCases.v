(** Concrete particles. *)
From Coq Require Import List NArith ZArith QArith String.
From Verif.Model Require Import Pdg.
From Verif.Spec Require Import Pdg.
From Verif.Proofs Require Import Pdg.
Import ListNotations.

Local Open Scope Z_scope.

Lemma lead_names :
  map get_pdg_id_from_name [u8 "Pb208"; u8 "pb 208"; u8 "208Pb"; u8 "LEAD_208"; u8 "²⁰⁸Pb"; u8 "lead-208"]
  = repeat (Ret 1000822080) 6.
Proof. vm_compute. reflexivity. Qed.

Lemma lead_long : get_name_from_pdg_id 1000822080 true true = Ret (u8 "Lead-208").
Proof. vm_compute. reflexivity. Qed.

(** "Tin" is part of "astatine" and of "platinum". *)
Lemma astatine :
  get_pdg_id_from_name (u8 "Astatine-210") = Ret 1000852100
  /\ get_pdg_id_from_name (u8 "platinum195") = Ret 1000781950
  /\ get_pdg_id_from_name (u8 "antimony121") = Ret 1000511210.
Proof. vm_compute. repeat split; reflexivity. Qed.

Lemma anti_lead : get_name_from_pdg_id (-1000822080) true true = Ret (u8 "anti-Lead-208")
  /\ get_pdg_id_from_name (u8 "anti-Lead-208") = ValueError.
Proof. vm_compute. split; reflexivity. Qed.

Lemma big_ion : get_pdg_id_ion 1000 100 = Ret 1001010000
  /\ get_properties_from_pdg_id 1001010000 true true = Ret (101, 0, 101, u8 "Mendelevium-0").
Proof. vm_compute. split; reflexivity. Qed.

Lemma isomer : get_name_from_pdg_id 1000721772 true true = Ret (u8 "Hafnium-177")
  /\ get_pdg_id_from_name (u8 "Hafnium-177") = Ret 1000721770.
Proof. vm_compute. split; reflexivity. Qed.

Lemma bare : get_pdg_id_ion 2 2 = Ret 1000020020 /\ is_ion 1000020020 = false.
Proof. vm_compute. split; reflexivity. Qed.

Lemma anti_uranium : get_mass_from_pdg_id 1000922380 true None
    = Ret (inject_Z 238 * (93149410242 # 100))%Q
  /\ get_mass_from_pdg_id (-1000922380) true None = ValueError.
Proof.
  rewrite !get_mass_eq. vm_compute. split; reflexivity.
Qed.

Lemma antikaon : get_mass_from_pdg_id (-311) true None = Ret (497611000 # 1)
  /\ get_pdg_id_from_mass_charge (497611000 # 1) 0 (1 # 1000) = Ret 311.
Proof. rewrite get_mass_eq, from_mass_eq. vm_compute. split; reflexivity. Qed.

Lemma lead_mass : get_mass_from_pdg_id 1000822080 true None = Ret (193729024800 # 1)
  /\ get_pdg_id_from_mass_charge (193729024800 # 1) 82 (1 # 1000) = Ret 1000822080.
Proof. rewrite get_mass_eq, from_mass_eq. vm_compute. split; reflexivity. Qed.

Lemma uranium_mass : get_mass_from_pdg_id 1000922380 true None
    = Ret (inject_Z 238 * (93149410242 # 100))%Q
  /\ get_pdg_id_from_mass_charge (inject_Z 238 * (93149410242 # 100)) 92 (1 # 1000)
     = Ret 1000922380.
Proof. rewrite get_mass_eq, from_mass_eq. vm_compute. split; reflexivity. Qed.

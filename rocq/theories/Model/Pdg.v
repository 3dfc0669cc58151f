(** Particle numbers, names and masses (xtrack/particles/pdg.py and
    xtrack/particles/masses.py).  No proofs.

    Simplifications:
    - a name is the list of the code points of its characters; [str.lower] is
      modelled on ASCII and on the Greek capitals, every other character is
      kept as it is; [str.isnumeric] is true of the ASCII digits only;
    - masses are exact rationals, with the decimal values of masses.py;
    - the quotients [int(x / 1e7)], [int(x / 1e4)], [int(x / 10)] are integer
      quotients;
    - arrays of numbers or names (the recursive first branch of every function)
      and the printed warning are left out; [None] and numbers given instead of
      a name are left out. *)
From Coq Require Import List NArith ZArith QArith String Ascii Bool DecimalN.
Import ListNotations.

Local Open Scope Z_scope.

Definition text := list N.

(** Code points of a UTF-8 literal (sequences of one, two or three bytes). *)
Fixpoint u8 (s : string) : text :=
  match s with
  | EmptyString => []
  | String a r =>
      let n := N_of_ascii a in
      if (n <? 128)%N then n :: u8 r
      else if (n <? 224)%N then
        match r with
        | String b r' => (((n - 192) * 64 + (N_of_ascii b - 128))%N) :: u8 r'
        | EmptyString => []
        end
      else
        match r with
        | String b (String c r') =>
            (((n - 224) * 4096 + (N_of_ascii b - 128) * 64
              + (N_of_ascii c - 128))%N) :: u8 r'
        | _ => []
        end
  end.

(** What a call gives: a value, a ValueError or an IndexError. *)
Inductive outcome (A : Type) :=
| Ret (a : A)
| ValueError
| IndexError.
Arguments Ret {A} a.
Arguments ValueError {A}.
Arguments IndexError {A}.

Definition bind {A B} (x : outcome A) (f : A -> outcome B) : outcome B :=
  match x with
  | Ret a => f a
  | ValueError => ValueError
  | IndexError => IndexError
  end.

(** pdg.py:25-73 *)
Definition pdg_table : list (Z * (Z * list text)) :=
  [ (0, (0, [u8 "undefined"]));
    (11, (-1, [u8 "e⁻"; u8 "e"; u8 "electron"]));
    (-11, (1, [u8 "e⁺"; u8 "positron"]));
    (12, (0, [u8 "νₑ"; u8 "electron neutrino"]));
    (13, (-1, [u8 "μ⁻"; u8 "μ"; u8 "muon-"; u8 "muon"]));
    (-13, (1, [u8 "μ⁺"; u8 "muon+"; u8 "anti-muon"]));
    (14, (0, [u8 "νμ"; u8 "muon neutrino"]));
    (15, (-1, [u8 "τ⁻"; u8 "τ"; u8 "tau-"; u8 "tau"]));
    (-15, (1, [u8 "τ⁺"; u8 "tau+"; u8 "anti-tau"]));
    (16, (0, [u8 "ντ"; u8 "tau neutrino"]));
    (22, (0, [u8 "γ⁰"; u8 "γ"; u8 "gamma"; u8 "photon"]));
    (111, (0, [u8 "π⁰"; u8 "π"; u8 "pion"; u8 "pion0"; u8 "pi0"]));
    (211, (1, [u8 "π⁺"; u8 "pion+"; u8 "pi+"]));
    (-211, (-1, [u8 "π⁻"; u8 "pion-"; u8 "pi-"]));
    (311, (0, [u8 "K⁰"; u8 "kaon"; u8 "kaon0"]));
    (321, (1, [u8 "K⁺"; u8 "kaon+"]));
    (-321, (-1, [u8 "K⁻"; u8 "kaon-"]));
    (130, (0, [u8 "KL"; u8 "long kaon"]));
    (310, (0, [u8 "Kₛ"; u8 "short kaon"]));
    (421, (0, [u8 "D⁰"; u8 "D"]));
    (411, (1, [u8 "D⁺"]));
    (-411, (-1, [u8 "D⁻"]));
    (431, (1, [u8 "Dₛ⁺"]));
    (-431, (-1, [u8 "Dₛ⁻"]));
    (2212, (1, [u8 "p⁺"; u8 "p"; u8 "proton"]));
    (-2212, (-1, [u8 "p⁻"; u8 "anti-proton"]));
    (2112, (0, [u8 "n⁰"; u8 "n"; u8 "neutron"]));
    (2224, (2, [u8 "Δ⁺⁺"; u8 "delta++"]));
    (2214, (1, [u8 "Δ⁺"; u8 "delta+"]));
    (2114, (0, [u8 "Δ⁰"; u8 "delta0"]));
    (1114, (-1, [u8 "Δ⁻"; u8 "delta-"]));
    (3122, (0, [u8 "Λ⁰"; u8 "Λ"; u8 "lambda"]));
    (4122, (1, [u8 "Λc⁺"; u8 "lambdac+"]));
    (3222, (1, [u8 "Σ⁺"; u8 "sigma+"]));
    (3212, (0, [u8 "Σ⁰"; u8 "Σ"; u8 "sigma"; u8 "sigma0"]));
    (3112, (-1, [u8 "Σ⁻"; u8 "sigma-"]));
    (3322, (0, [u8 "Ξ⁰"; u8 "Ξ"; u8 "xi"; u8 "xi0"]));
    (3312, (-1, [u8 "Ξ⁻"; u8 "xi-"]));
    (4132, (0, [u8 "Ξc⁰"; u8 "Ξc"; u8 "xic"; u8 "xic0"]));
    (4232, (1, [u8 "Ξc⁺"; u8 "xic+"]));
    (4312, (0, [u8 "Ξ'c⁰"; u8 "Ξ'c"; u8 "xiprimec"; u8 "xiprimec0"]));
    (4322, (1, [u8 "Ξ'c⁺"; u8 "xiprimec+"]));
    (3334, (-1, [u8 "Ω⁻"; u8 "omega-"]));
    (4332, (0, [u8 "Ωc⁰"; u8 "Ωc"; u8 "omegac"; u8 "omegac0"]));
    (1000010020, (1, [u8 "²H"; u8 "H2"; u8 "hydrogen-2"; u8 "deuteron"]));
    (1000010030, (1, [u8 "³H"; u8 "H3"; u8 "hydrogen-3"; u8 "triton"])) ].

(** pdg.py:75-88 *)
Definition elements : list (Z * text) :=
  [ (1, u8 "H"); (2, u8 "He"); (3, u8 "Li"); (4, u8 "Be"); (5, u8 "B");
    (6, u8 "C"); (7, u8 "N"); (8, u8 "O"); (9, u8 "F"); (10, u8 "Ne");
    (11, u8 "Na"); (12, u8 "Mg"); (13, u8 "Al"); (14, u8 "Si"); (15, u8 "P");
    (16, u8 "S"); (17, u8 "Cl"); (18, u8 "Ar"); (19, u8 "K"); (20, u8 "Ca");
    (21, u8 "Sc"); (22, u8 "Ti"); (23, u8 "V"); (24, u8 "Cr"); (25, u8 "Mn");
    (26, u8 "Fe"); (27, u8 "Co"); (28, u8 "Ni"); (29, u8 "Cu"); (30, u8 "Zn");
    (31, u8 "Ga"); (32, u8 "Ge"); (33, u8 "As"); (34, u8 "Se"); (35, u8 "Br");
    (36, u8 "Kr"); (37, u8 "Rb"); (38, u8 "Sr"); (39, u8 "Y"); (40, u8 "Zr");
    (41, u8 "Nb"); (42, u8 "Mo"); (43, u8 "Tc"); (44, u8 "Ru"); (45, u8 "Rh");
    (46, u8 "Pd"); (47, u8 "Ag"); (48, u8 "Cd"); (49, u8 "In"); (50, u8 "Sn");
    (51, u8 "Sb"); (52, u8 "Te"); (53, u8 "I"); (54, u8 "Xe"); (55, u8 "Cs");
    (56, u8 "Ba"); (57, u8 "La"); (58, u8 "Ce"); (59, u8 "Pr"); (60, u8 "Nd");
    (61, u8 "Pm"); (62, u8 "Sm"); (63, u8 "Eu"); (64, u8 "Gd"); (65, u8 "Tb");
    (66, u8 "Dy"); (67, u8 "Ho"); (68, u8 "Er"); (69, u8 "Tm"); (70, u8 "Yb");
    (71, u8 "Lu"); (72, u8 "Hf"); (73, u8 "Ta"); (74, u8 "W"); (75, u8 "Re");
    (76, u8 "Os"); (77, u8 "Ir"); (78, u8 "Pt"); (79, u8 "Au"); (80, u8 "Hg");
    (81, u8 "Tl"); (82, u8 "Pb"); (83, u8 "Bi"); (84, u8 "Po"); (85, u8 "At");
    (86, u8 "Rn"); (87, u8 "Fr"); (88, u8 "Ra"); (89, u8 "Ac"); (90, u8 "Th");
    (91, u8 "Pa"); (92, u8 "U"); (93, u8 "Np"); (94, u8 "Pu"); (95, u8 "Am");
    (96, u8 "Cm"); (97, u8 "Bk"); (98, u8 "Cf"); (99, u8 "Es"); (100, u8 "Fm");
    (101, u8 "Md"); (102, u8 "No"); (103, u8 "Lr"); (104, u8 "Rf"); (105, u8 "Db");
    (106, u8 "Sg"); (107, u8 "Bh"); (108, u8 "Hs"); (109, u8 "Mt"); (110, u8 "Ds");
    (111, u8 "Rg"); (112, u8 "Cn"); (113, u8 "Nh"); (114, u8 "Fl"); (115, u8 "Mc");
    (116, u8 "Lv"); (117, u8 "Ts"); (118, u8 "Og") ].

(** pdg.py:91-116 *)
Definition elements_long : list (Z * text) :=
  [ (1, u8 "Hydrogen"); (2, u8 "Helium"); (3, u8 "Lithium"); (4, u8 "Beryllium"); (5, u8 "Boron");
    (6, u8 "Carbon"); (7, u8 "Nitrogen"); (8, u8 "Oxygen"); (9, u8 "Fluorine"); (10, u8 "Neon");
    (11, u8 "Sodium"); (12, u8 "Magnesium"); (13, u8 "Aluminum"); (14, u8 "Silicon"); (15, u8 "Phosphorus");
    (16, u8 "Sulfur"); (17, u8 "Chlorine"); (18, u8 "Argon"); (19, u8 "Potassium"); (20, u8 "Calcium");
    (21, u8 "Scandium"); (22, u8 "Titanium"); (23, u8 "Vanadium"); (24, u8 "Chromium"); (25, u8 "Manganese");
    (26, u8 "Iron"); (27, u8 "Cobalt"); (28, u8 "Nickel"); (29, u8 "Copper"); (30, u8 "Zinc");
    (31, u8 "Gallium"); (32, u8 "Germanium"); (33, u8 "Arsenic"); (34, u8 "Selenium"); (35, u8 "Bromine");
    (36, u8 "Krypton"); (37, u8 "Rubidium"); (38, u8 "Strontium"); (39, u8 "Yttrium"); (40, u8 "Zirconium");
    (41, u8 "Niobium"); (42, u8 "Molybdenum"); (43, u8 "Technetium"); (44, u8 "Ruthenium"); (45, u8 "Rhodium");
    (46, u8 "Palladium"); (47, u8 "Silver"); (48, u8 "Cadmium"); (49, u8 "Indium"); (50, u8 "Tin");
    (51, u8 "Antimony"); (52, u8 "Tellurium"); (53, u8 "Iodine"); (54, u8 "Xenon"); (55, u8 "Cesium");
    (56, u8 "Barium"); (57, u8 "Lanthanum"); (58, u8 "Cerium"); (59, u8 "Praseodymium"); (60, u8 "Neodymium");
    (61, u8 "Promethium"); (62, u8 "Samarium"); (63, u8 "Europium"); (64, u8 "Gadolinium"); (65, u8 "Terbium");
    (66, u8 "Dysprosium"); (67, u8 "Holmium"); (68, u8 "Erbium"); (69, u8 "Thulium"); (70, u8 "Ytterbium");
    (71, u8 "Lutetium"); (72, u8 "Hafnium"); (73, u8 "Tantalum"); (74, u8 "Tungsten"); (75, u8 "Rhenium");
    (76, u8 "Osmium"); (77, u8 "Iridium"); (78, u8 "Platinum"); (79, u8 "Gold"); (80, u8 "Mercury");
    (81, u8 "Thallium"); (82, u8 "Lead"); (83, u8 "Bismuth"); (84, u8 "Polonium"); (85, u8 "Astatine");
    (86, u8 "Radon"); (87, u8 "Francium"); (88, u8 "Radium"); (89, u8 "Actinium"); (90, u8 "Thorium");
    (91, u8 "Protactinium"); (92, u8 "Uranium"); (93, u8 "Neptunium"); (94, u8 "Plutonium"); (95, u8 "Americium");
    (96, u8 "Curium"); (97, u8 "Berkelium"); (98, u8 "Californium"); (99, u8 "Einsteinium"); (100, u8 "Fermium");
    (101, u8 "Mendelevium"); (102, u8 "Nobelium"); (103, u8 "Lawrencium"); (104, u8 "Rutherfordium"); (105, u8 "Dubnium");
    (106, u8 "Seaborgium"); (107, u8 "Bohrium"); (108, u8 "Hassium"); (109, u8 "Meitnerium"); (110, u8 "Darmstadtium");
    (111, u8 "Roentgenium"); (112, u8 "Copernicium"); (113, u8 "Nihonium"); (114, u8 "Flerovium"); (115, u8 "Moscovium");
    (116, u8 "Livermorium"); (117, u8 "Tennessine"); (118, u8 "Oganesson") ].

(** masses.py:7-181 *)
Definition mass_dict : list (text * Q) :=
  [ (u8 "ELECTRON_MASS_EV", (51099895 # 100));
    (u8 "MUON_MASS_EV", (1056583755 # 10));
    (u8 "PION_MASS_EV", (139570390 # 1));
    (u8 "KAON_MASS_EV", (493677000 # 1));
    (u8 "PROTON_MASS_EV", (93827208816 # 100));
    (u8 "DEUTERON_MASS_EV", (1875612945 # 1));
    (u8 "TRITON_MASS_EV", (280892113668 # 100));
    (u8 "He3_MASS_EV", (280839161112 # 100));
    (u8 "He4_MASS_EV", (37273794118 # 10));
    (u8 "U_MASS_EV", (93149410242 # 100));
    (u8 "C10_MASS_EV", (9330639707 # 1));
    (u8 "C11_MASS_EV", (10257084532 # 1));
    (u8 "C12_MASS_EV", (11177929229 # 1));
    (u8 "C13_MASS_EV", (121125483408 # 10));
    (u8 "C14_MASS_EV", (130439373279 # 10));
    (u8 "C15_MASS_EV", (13982284810 # 1));
    (u8 "O14_MASS_EV", (13048925215 # 1));
    (u8 "O15_MASS_EV", (13975267170 # 1));
    (u8 "O16_MASS_EV", (148991686366 # 10));
    (u8 "O17_MASS_EV", (15834590977 # 1));
    (u8 "O18_MASS_EV", (167661110273 # 10));
    (u8 "O19_MASS_EV", (17701720900 # 1));
    (u8 "O20_MASS_EV", (18633678340 # 1));
    (u8 "Ne19_MASS_EV", (17700140000 # 1));
    (u8 "Ne20_MASS_EV", (186228401163 # 10));
    (u8 "Ne21_MASS_EV", (19555644383 # 1));
    (u8 "Ne22_MASS_EV", (20484845538 # 1));
    (u8 "Ne23_MASS_EV", (21419210320 # 1));
    (u8 "Ne24_MASS_EV", (22349906830 # 1));
    (u8 "Ar35_MASS_EV", (32579246300 # 1));
    (u8 "Ar36_MASS_EV", (33503556145 # 1));
    (u8 "Ar37_MASS_EV", (34434334110 # 1));
    (u8 "Ar38_MASS_EV", (35362061070 # 1));
    (u8 "Ar39_MASS_EV", (36295027800 # 1));
    (u8 "Ar40_MASS_EV", (37224724197 # 1));
    (u8 "Ar41_MASS_EV", (38158190689 # 1));
    (u8 "Ar42_MASS_EV", (39088329600 # 1));
    (u8 "Ar43_MASS_EV", (40022236600 # 1));
    (u8 "Ar44_MASS_EV", (40953067200 # 1));
    (u8 "Ar45_MASS_EV", (41887463810 # 1));
    (u8 "Ar46_MASS_EV", (42818957400 # 1));
    (u8 "Ar47_MASS_EV", (43754855500 # 1));
    (u8 "Fe52_MASS_EV", (48389361230 # 1));
    (u8 "Fe53_MASS_EV", (49318239900 # 1));
    (u8 "Fe54_MASS_EV", (50244426920 # 1));
    (u8 "Fe55_MASS_EV", (51174694210 # 1));
    (u8 "Fe56_MASS_EV", (52103062570 # 1));
    (u8 "Fe57_MASS_EV", (53034981820 # 1));
    (u8 "Fe58_MASS_EV", (53964502670 # 1));
    (u8 "Fe59_MASS_EV", (54897487080 # 1));
    (u8 "Fe60_MASS_EV", (55828232900 # 1));
    (u8 "Fe61_MASS_EV", (56762219700 # 1));
    (u8 "Fe62_MASS_EV", (57693756300 # 1));
    (u8 "Fe63_MASS_EV", (58628492800 # 1));
    (u8 "Fe64_MASS_EV", (59560653000 # 1));
    (u8 "Xe112_MASS_EV", (104267313200 # 1));
    (u8 "Xe113_MASS_EV", (105196621000 # 1));
    (u8 "Xe114_MASS_EV", (106123241000 # 1));
    (u8 "Xe115_MASS_EV", (107053165000 # 1));
    (u8 "Xe116_MASS_EV", (107980269000 # 1));
    (u8 "Xe117_MASS_EV", (108910625000 # 1));
    (u8 "Xe118_MASS_EV", (109838225000 # 1));
    (u8 "Xe119_MASS_EV", (110769004000 # 1));
    (u8 "Xe120_MASS_EV", (111697120000 # 1));
    (u8 "Xe121_MASS_EV", (112628305000 # 1));
    (u8 "Xe122_MASS_EV", (113556926000 # 1));
    (u8 "Xe123_MASS_EV", (114488526100 # 1));
    (u8 "Xe124_MASS_EV", (115417601300 # 1));
    (u8 "Xe125_MASS_EV", (116349563400 # 1));
    (u8 "Xe126_MASS_EV", (117279110518 # 1));
    (u8 "Xe127_MASS_EV", (118211430100 # 1));
    (u8 "Xe128_MASS_EV", (119141384575 # 1));
    (u8 "Xe129_MASS_EV", (120074043142 # 1));
    (u8 "Xe130_MASS_EV", (121004352839 # 1));
    (u8 "Xe131_MASS_EV", (121937313842 # 1));
    (u8 "Xe132_MASS_EV", (122867942545 # 1));
    (u8 "Xe133_MASS_EV", (123801072000 # 1));
    (u8 "Xe134_MASS_EV", (124732083890 # 1));
    (u8 "Xe135_MASS_EV", (125665290400 # 1));
    (u8 "Xe136_MASS_EV", (126596768759 # 1));
    (u8 "Xe137_MASS_EV", (127532308620 # 1));
    (u8 "Xe138_MASS_EV", (128466214000 # 1));
    (u8 "Xe139_MASS_EV", (129402035700 # 1));
    (u8 "Xe140_MASS_EV", (130336187900 # 1));
    (u8 "Xe141_MASS_EV", (131272471200 # 1));
    (u8 "Xe142_MASS_EV", (132206932900 # 1));
    (u8 "Au176_MASS_EV", (163924444000 # 1));
    (u8 "Au177_MASS_EV", (164852911000 # 1));
    (u8 "Au178_MASS_EV", (165783647000 # 1));
    (u8 "Au179_MASS_EV", (166712456000 # 1));
    (u8 "Au180_MASS_EV", (167643312800 # 1));
    (u8 "Au181_MASS_EV", (168572561000 # 1));
    (u8 "Au182_MASS_EV", (169503622000 # 1));
    (u8 "Au183_MASS_EV", (170433229200 # 1));
    (u8 "Au184_MASS_EV", (171364597000 # 1));
    (u8 "Au185_MASS_EV", (172294550800 # 1));
    (u8 "Au186_MASS_EV", (173226188000 # 1));
    (u8 "Au187_MASS_EV", (174156368000 # 1));
    (u8 "Au188_MASS_EV", (175088520000 # 1));
    (u8 "Au189_MASS_EV", (176018803000 # 1));
    (u8 "Au190_MASS_EV", (176951046200 # 1));
    (u8 "Au191_MASS_EV", (177881575200 # 1));
    (u8 "Au192_MASS_EV", (178814096000 # 1));
    (u8 "Au193_MASS_EV", (179744956500 # 1));
    (u8 "Au194_MASS_EV", (180677644000 # 1));
    (u8 "Au195_MASS_EV", (181608782900 # 1));
    (u8 "Au196_MASS_EV", (182541705200 # 1));
    (u8 "Au197_MASS_EV", (183473198420 # 1));
    (u8 "Au198_MASS_EV", (184406251470 # 1));
    (u8 "Au199_MASS_EV", (185338232650 # 1));
    (u8 "Au200_MASS_EV", (186271581000 # 1));
    (u8 "Au201_MASS_EV", (187203914200 # 1));
    (u8 "Au202_MASS_EV", (188137456000 # 1));
    (u8 "Au203_MASS_EV", (189070159400 # 1));
    (u8 "Au204_MASS_EV", (190004410000 # 1));
    (u8 "Au205_MASS_EV", (190937720000 # 1));
    (u8 "Au206_MASS_EV", (191873600000 # 1));
    (u8 "Au207_MASS_EV", (192808640000 # 1));
    (u8 "Au208_MASS_EV", (193744870000 # 1));
    (u8 "Au209_MASS_EV", (194680040000 # 1));
    (u8 "Au210_MASS_EV", (195616440000 # 1));
    (u8 "Pb185_MASS_EV", (172314868000 # 1));
    (u8 "Pb186_MASS_EV", (173243222000 # 1));
    (u8 "Pb187_MASS_EV", (174174410200 # 1));
    (u8 "Pb188_MASS_EV", (175103080000 # 1));
    (u8 "Pb189_MASS_EV", (176034542000 # 1));
    (u8 "Pb190_MASS_EV", (176963463000 # 1));
    (u8 "Pb191_MASS_EV", (177895082400 # 1));
    (u8 "Pb192_MASS_EV", (178824315800 # 1));
    (u8 "Pb193_MASS_EV", (179756133000 # 1));
    (u8 "Pb194_MASS_EV", (180685648000 # 1));
    (u8 "Pb195_MASS_EV", (181617612000 # 1));
    (u8 "Pb196_MASS_EV", (182547495900 # 1));
    (u8 "Pb197_MASS_EV", (183479592800 # 1));
    (u8 "Pb198_MASS_EV", (184409764900 # 1));
    (u8 "Pb199_MASS_EV", (185342094600 # 1));
    (u8 "Pb200_MASS_EV", (186272570000 # 1));
    (u8 "Pb201_MASS_EV", (187205043000 # 1));
    (u8 "Pb202_MASS_EV", (188135868100 # 1));
    (u8 "Pb203_MASS_EV", (189068516300 # 1));
    (u8 "Pb204_MASS_EV", (189999687100 # 1));
    (u8 "Pb205_MASS_EV", (190932520900 # 1));
    (u8 "Pb206_MASS_EV", (191863999600 # 1));
    (u8 "Pb207_MASS_EV", (192796827200 # 1));
    (u8 "Pb208_MASS_EV", (193729024800 # 1));
    (u8 "Pb209_MASS_EV", (194664652900 # 1));
    (u8 "Pb210_MASS_EV", (195599033100 # 1));
    (u8 "Pb211_MASS_EV", (196534762600 # 1));
    (u8 "Pb212_MASS_EV", (197469200800 # 1));
    (u8 "Pb213_MASS_EV", (198405040200 # 1));
    (u8 "Pb214_MASS_EV", (199339554900 # 1));
    (u8 "Pb215_MASS_EV", (200275575000 # 1));
    (u8 "Pb216_MASS_EV", (201210230000 # 1));
    (u8 "Pb217_MASS_EV", (202146480000 # 1));
    (u8 "Pb218_MASS_EV", (203081340000 # 1));
    (u8 "Pb219_MASS_EV", (204017830000 # 1));
    (u8 "Pb220_MASS_EV", (204952840000 # 1));
    (u8 "PHOTON_MASS_EV", (0 # 1));
    (u8 "PION0_MASS_EV", (134976800 # 1));
    (u8 "KAON0_MASS_EV", (497611000 # 1));
    (u8 "NEUTRON_MASS_EV", (9395654205 # 10)) ].

(** masses.py:19 *)
Definition U_MASS_EV : Q := 93149410242 # 100.

(** Text primitives of Python. *)
Fixpoint text_eqb (a b : text) : bool :=
  match a, b with
  | [], [] => true
  | x :: a', y :: b' => (x =? y)%N && text_eqb a' b'
  | _, _ => false
  end.

(** str.startswith *)
Fixpoint starts (w s : text) : bool :=
  match w, s with
  | [], _ => true
  | x :: w', y :: s' => (x =? y)%N && starts w' s'
  | _ :: _, [] => false
  end.

(** [w in s] *)
Fixpoint contains (w s : text) : bool :=
  starts w s || match s with [] => false | _ :: s' => contains w s' end.

(** [s.replace(w, '')] for a non-empty [w]: [skip] characters of the occurrence
    being removed are still to be dropped. *)
Fixpoint remove_all (w s : text) (skip : nat) : text :=
  match s with
  | [] => []
  | c :: s' =>
      match skip with
      | S k => remove_all w s' k
      | O => if starts w s then remove_all w s' (Nat.pred (List.length w))
             else c :: remove_all w s' O
      end
  end.

Definition lower_char (c : N) : N :=
  if ((65 <=? c)%N && (c <=? 90)%N) || ((913 <=? c)%N && (c <=? 937)%N)
  then (c + 32)%N else c.

(** str.lower *)
Definition lower (s : text) : text := map lower_char s.

Definition is_digit (c : N) : bool := ((48 <=? c)%N && (c <=? 57)%N).

(** str.isnumeric *)
Definition isnumeric (s : text) : bool :=
  match s with [] => false | _ => forallb is_digit s end.

(** int of a string of digits *)
Definition int_of_text (s : text) : Z :=
  fold_left (fun a c => 10 * a + Z.of_N (c - 48)) s 0.

Fixpoint uint_text (d : Decimal.uint) : text :=
  match d with
  | Decimal.Nil => []
  | Decimal.D0 d' => 48%N :: uint_text d'
  | Decimal.D1 d' => 49%N :: uint_text d'
  | Decimal.D2 d' => 50%N :: uint_text d'
  | Decimal.D3 d' => 51%N :: uint_text d'
  | Decimal.D4 d' => 52%N :: uint_text d'
  | Decimal.D5 d' => 53%N :: uint_text d'
  | Decimal.D6 d' => 54%N :: uint_text d'
  | Decimal.D7 d' => 55%N :: uint_text d'
  | Decimal.D8 d' => 56%N :: uint_text d'
  | Decimal.D9 d' => 57%N :: uint_text d'
  end.

(** [f'{A}'] *)
Definition text_of_int (a : Z) : text :=
  match a with
  | Zneg p => 45%N :: uint_text (N.to_uint (Npos p))
  | _ => uint_text (N.to_uint (Z.to_N a))
  end.

(** The code points of the superscripts 0 to 9, plus and minus. *)
Definition superscripts : list (N * N) :=
  [(48, 8304); (49, 185); (50, 178); (51, 179); (52, 8308); (53, 8309);
   (54, 8310); (55, 8311); (56, 8312); (57, 8313); (43, 8314); (45, 8315)]%N.

(** pdg.py:472-475 _digits_to_superscript *)
Definition to_superscript_char (c : N) : N :=
  match find (fun p => (fst p =? c)%N) superscripts with
  | Some p => snd p
  | None => c
  end.
Definition digits_to_superscript (s : text) : text := map to_superscript_char s.

(** pdg.py:477-480 _digits_to_normalscript *)
Definition to_normal_char (c : N) : N :=
  match find (fun p => (snd p =? c)%N) superscripts with
  | Some p => fst p
  | None => c
  end.
Definition digits_to_normalscript (s : text) : text := map to_normal_char s.

(** pdg.py:482-483 _to_normal_script *)
Definition sub_char (c : N) : N :=
  if (c =? 8347)%N then 115%N else if (c =? 8337)%N then 101%N else c.
Definition to_normal_script (s : text) : text :=
  map sub_char (digits_to_normalscript s).

(** pdg.py:451-469 _flip_end_sign *)
Definition flip_end_sign (name : text) : outcome text :=
  match rev name with
  | [] => IndexError
  | c1 :: r =>
      let two (c : N) :=
        match r with c2 :: _ => (c1 =? c)%N && (c2 =? c)%N | [] => false end in
      let cut2 := rev (tl r) in
      let cut1 := rev r in
      if two 8314%N then Ret (cut2 ++ [8315; 8315]%N)
      else if two 43%N then Ret (cut2 ++ [45; 45]%N)
      else if two 8315%N then Ret (cut2 ++ [8314; 8314]%N)
      else if two 45%N then Ret (cut2 ++ [43; 43]%N)
      else if (c1 =? 8314)%N then Ret (cut1 ++ [8315]%N)
      else if (c1 =? 43)%N then Ret (cut1 ++ [45]%N)
      else if (c1 =? 8315)%N then Ret (cut1 ++ [8314]%N)
      else if (c1 =? 45)%N then Ret (cut1 ++ [43]%N)
      else Ret name
  end.

(** Lookup in a dict given by its items. *)
Fixpoint lookup {A} (k : Z) (d : list (Z * A)) : option A :=
  match d with
  | [] => None
  | (k', a) :: d' => if k' =? k then Some a else lookup k d'
  end.

(** pdg.py:443-448 get_pdg_inv: the items assigned, in order; the last one with
    a given key counts. *)
Definition pdg_inv : list (text * Z) :=
  flat_map (fun e => map (fun n => (lower (to_normal_script n), fst e)) (snd (snd e)))
    pdg_table.
Definition lookup_name (n : text) : option Z :=
  fold_left (fun found e => if text_eqb (fst e) n then Some (snd e) else found)
    pdg_inv None.

(** pdg.py:120-122 is_proton *)
Definition is_proton (pdg_id : Z) : bool := pdg_id =? 2212.

(** pdg.py:134-136 is_lepton *)
Definition is_lepton (pdg_id : Z) : bool :=
  (11 <=? Z.abs pdg_id) && (Z.abs pdg_id <=? 16).

(** The digits of the number of an ion, pdg.py:126-130 and 302-308. *)
Definition ion_digits (pdg_id : Z) : Z * Z :=
  let tmpid := pdg_id - 1000000000 in
  let L := Z.quot tmpid 10000000 in
  let tmpid := tmpid - L * 10000000 in
  let z := Z.quot tmpid 10000 in
  let tmpid := tmpid - z * 10000 in
  let a := Z.quot tmpid 10 in
  (z, a).

(** pdg.py:124-132 is_ion *)
Definition is_ion (pdg_id : Z) : bool :=
  let (z, a) := ion_digits pdg_id in
  (1000000000 <=? pdg_id) && (0 <? z) && (z <? a).

(** pdg.py:329-333 get_element_name_from_Z *)
Definition get_element_name_from_Z (z : Z) : outcome text :=
  match lookup z elements with Some e => Ret e | None => ValueError end.

(** pdg.py:335-339 get_element_full_name_from_Z *)
Definition get_element_full_name_from_Z (z : Z) : outcome text :=
  match lookup z elements_long with Some e => Ret e | None => ValueError end.

(** pdg.py:351-360 get_pdg_id_ion *)
Definition get_pdg_id_ion (a z : Z) : outcome Z :=
  if (z <? 1) || (a <? 2) || (a <? z) then ValueError
  else Ret (1000000000 + z * 10000 + a * 10).

(** pdg.py:197-204: the name without the leading anti *)
Definition anti_name (lname : text) : outcome text :=
  if starts (u8 "anti-") lname then flip_end_sign (skipn 5 lname)
  else if starts (u8 "anti ") lname then flip_end_sign (skipn 5 lname)
  else if starts (u8 "anti") lname then flip_end_sign (skipn 4 lname)
  else Ret [].

(** pdg.py:219-228: one of the two loops over the elements; [None] when the
    loop ends without a return *)
Fixpoint find_element (ion_name : text) (els : list (Z * text)) : option (outcome Z) :=
  match els with
  | [] => None
  | (z, ion) :: els' =>
      if contains (lower ion) ion_name then
        let a := remove_all (lower ion) ion_name 0 in
        if isnumeric a && (0 <? int_of_text a)
        then Some (get_pdg_id_ion (int_of_text a) z)
        else find_element ion_name els'
      else find_element ion_name els'
  end.

(** pdg.py:216-218 *)
Definition without_separators (s : text) : text :=
  filter (fun c => negb ((c =? 95)%N || (c =? 45)%N || (c =? 32)%N || (c =? 46)%N)) s.

(** pdg.py:196 *)
Definition plain_name (name : text) : text :=
  map (fun c => if (c =? 962)%N then 963%N else c) (lower (to_normal_script name)).

(** pdg.py:168-231 get_pdg_id_from_name *)
Definition get_pdg_id_from_name (name : text) : outcome Z :=
  let lname := plain_name name in
  bind (anti_name lname) (fun aname =>
  match lookup_name lname with
  | Some i => Ret i
  | None =>
      match lookup_name aname with
      | Some i => Ret (- i)
      | None =>
          let ion_name := without_separators (lower lname) in
          match find_element ion_name elements_long with
          | Some r => r
          | None =>
              match find_element ion_name elements with
              | Some r => r
              | None => ValueError
              end
          end
      end
  end).

(** pdg.py:273-317: the particles of the table and the ions; [None] for the
    other numbers *)
Definition direct_properties (pdg_id : Z) (long_name subscripts : bool)
    : option (outcome (Z * Z * Z * text)) :=
  match lookup pdg_id pdg_table with
  | Some (q, names) =>
      let name :=
        if long_name then last names []
        else if subscripts then hd [] names
        else to_normal_script (hd [] names) in
      if (Z.abs pdg_id =? 2212) || (Z.abs pdg_id =? 2112) then Some (Ret (q, 1, q, name))
      else if pdg_id =? 1000010020 then
        Some (Ret (q, 2, 1,
          if negb long_name && negb subscripts then u8 "H2" else name))
      else if pdg_id =? 1000010030 then
        Some (Ret (q, 3, 1,
          if negb long_name && negb subscripts then u8 "H3" else name))
      else Some (Ret (q, 0, 0, name))
  | None =>
      if 1000000000 <? pdg_id then
        let (z, a) := ion_digits pdg_id in
        Some (if long_name then
                bind (get_element_full_name_from_Z z) (fun e =>
                Ret (z, a, z, e ++ 45%N :: text_of_int a))
              else
                bind (get_element_name_from_Z z) (fun e =>
                Ret (z, a, z,
                  if subscripts then digits_to_superscript (text_of_int a) ++ e
                  else e ++ text_of_int a)))
      else None
  end.

(** pdg.py:234-326 get_properties_from_pdg_id *)
Definition get_properties_from_pdg_id (pdg_id : Z) (long_name subscripts : bool)
    : outcome (Z * Z * Z * text) :=
  match direct_properties pdg_id long_name subscripts with
  | Some r => r
  | None =>
      if match lookup (- pdg_id) pdg_table with Some _ => true | None => false end
         || (pdg_id <? -1000000000)
      then
        match direct_properties (- pdg_id) long_name subscripts with
        | Some r =>
            bind r (fun p =>
            let '(q, a, z, name) := p in
            bind (flip_end_sign (u8 "anti-" ++ name)) (fun name' =>
            Ret (- q, a, - z, name')))
        | None => ValueError
        end
      else ValueError
  end.

(** pdg.py:139-165 get_name_from_pdg_id *)
Definition get_name_from_pdg_id (pdg_id : Z) (long_name subscripts : bool) : outcome text :=
  bind (get_properties_from_pdg_id pdg_id long_name subscripts) (fun p => Ret (snd p)).

(** Python 3 [round] of a rational: the nearest integer, the even one when two
    are equally near. *)
Definition round (x : Q) : Z :=
  let n := Qnum x in
  let d := Zpos (Qden x) in
  let f := n / d in
  let r := 2 * (n mod d) in
  if r <? d then f else if d <? r then f + 1
  else if Z.even f then f else f + 1.

(** pdg.py:488-502 _get_mass_table *)
Definition mass_table_step (t : outcome (list (Z * Q))) (e : text * Q)
    : outcome (list (Z * Q)) :=
  bind t (fun t =>
  if text_eqb (fst e) (u8 "U_MASS_EV") then Ret t
  else
    let name := firstn (List.length (fst e) - 8) (fst e) in
    bind match get_pdg_id_from_name (name ++ [43%N]) with
         | ValueError => get_pdg_id_from_name name
         | r => r
         end (fun pdg_id =>
    match lookup pdg_id t with
    | None => Ret (t ++ [(pdg_id, snd e)])
    | Some _ => ValueError
    end)).
Definition mass_table : outcome (list (Z * Q)) :=
  fold_left mass_table_step mass_dict (Ret []).

Definition Qabs (x : Q) : Q := if (Qnum x <? 0) then Qopp x else x.
Definition Qltb (x y : Q) : bool := negb (Qle_bool y x).

(** pdg.py:377-383: the mass [val] of the table agrees with [m] *)
Definition mass_near (m rtol val : Q) : bool :=
  if Qltb (Qabs val) (1 # 1000000000000) then Qltb (Qabs m) (1 # 1000000000000)
  else Qle_bool (Qabs (val - m) / val) rtol.

(** pdg.py:386-394: those of the agreeing numbers, or their opposites, that
    have the charge *)
Fixpoint with_charge (q : Z) (ids : list Z) : outcome (list Z) :=
  match ids with
  | [] => Ret []
  | i :: ids' =>
      bind (get_properties_from_pdg_id i false true) (fun p =>
      let '(this_q, _, _, _) := p in
      if this_q =? q then bind (with_charge q ids') (fun l => Ret (i :: l))
      else
        bind (get_properties_from_pdg_id (- i) false true) (fun p =>
        let '(this_q, _, _, _) := p in
        if this_q =? q then bind (with_charge q ids') (fun l => Ret (- i :: l))
        else with_charge q ids'))
  end.

(** pdg.py:363-411 get_pdg_id_from_mass_charge *)
Definition get_pdg_id_from_mass_charge (m : Q) (q : Z) (rtol : Q) : outcome Z :=
  bind mass_table (fun table =>
  let found := map fst (filter (fun e => mass_near m rtol (snd e)) table) in
  bind (with_charge q found) (fun ids =>
  match ids with
  | [i] => Ret i
  | _ :: _ :: _ => ValueError
  | [] =>
      let a := round (m / U_MASS_EV) in
      if (0 <? q) && (1 <? a) then get_pdg_id_ion a q else ValueError
  end)).

(** pdg.py:505-533 _mass_consistent *)
Definition mass_consistent (pdg_id : Z) (m : Q) : outcome bool :=
  match bind (get_properties_from_pdg_id pdg_id false true) (fun p =>
        let '(q, _, _, _) := p in
        bind (get_pdg_id_from_mass_charge m q (1 # 1000)) (fun i => Ret (pdg_id =? i)))
  with
  | ValueError => Ret true
  | r => r
  end.

(** pdg.py:414-438 get_mass_from_pdg_id *)
Definition get_mass_from_pdg_id (pdg_id : Z) (allow_approximation : bool)
    (expected_mass : option Q) : outcome Q :=
  bind mass_table (fun table =>
  match lookup pdg_id table with
  | Some m => Ret m
  | None =>
      match lookup (- pdg_id) table with
      | Some m => Ret m
      | None =>
          if (1000000000 <? pdg_id) && allow_approximation then
            bind (get_properties_from_pdg_id pdg_id false true) (fun p =>
            let '(_, a, _, _) := p in
            Ret (inject_Z a * U_MASS_EV)%Q)
          else
            match expected_mass with
            | None => ValueError
            | Some m =>
                bind (mass_consistent pdg_id m) (fun b : bool =>
                if b then Ret m else ValueError)
            end
      end
  end).

(** The technology of the PDK sky130A: cxx/gen_tech_pb/pdk/sky130A.cpp, one call of a builder function per line, in the order of the source.  Written by tools/gen_pdk.py. *)
From Coq Require Import String ZArith QArith.
From Verif Require Import PyBase PyLib SW_Model TI_Model LV_Model RQ_Model PD_Model.
Local Open Scope string_scope.
Local Open Scope list_scope.
Local Open Scope Q_scope.

(** L214 *)
Definition sky130A_capm_thickness : Q := 0.1.
(** L215 *)
Definition sky130A_capild_k : Q := 4.52.
(** L216 *)
Definition sky130A_capild_thickness : Q := 0.02.
(** buildLayers, L49-69 *)
Definition sky130A_layers : list tlayer := [
  add_layer DNWELL "dnwell" 64 18 (-1) (-1) (-1) (-1);
  add_layer NWELL "nwell" 64 20 64 16 64 5;
  add_layer DIFF "diff" 65 20 65 16 65 5;
  add_layer N_P_TAP "tap" 65 44 (-1) (-1) (-1) (-1);
  add_layer PIMP "psdm" 94 20 (-1) (-1) (-1) (-1);
  add_layer NIMP "nsdm" 93 44 (-1) (-1) (-1) (-1);
  add_layer METAL "poly" 66 20 66 16 66 5;
  add_layer CONT "licon1" 66 44 (-1) (-1) (-1) (-1);
  add_layer METAL "li1" 67 20 67 16 67 5;
  add_layer VIA "mcon" 67 44 (-1) (-1) (-1) (-1);
  add_layer METAL "met1" 68 20 68 16 68 5;
  add_layer VIA "via" 68 44 (-1) (-1) (-1) (-1);
  add_layer METAL "met2" 69 20 69 16 69 5;
  add_layer VIA "via2" 69 44 (-1) (-1) (-1) (-1);
  add_layer METAL "met3" 70 20 70 16 70 5;
  add_layer VIA "via3" 70 44 (-1) (-1) (-1) (-1);
  add_layer MIM "capm" 89 44 (-1) (-1) (-1) (-1);
  add_layer METAL "met4" 71 20 71 16 71 5;
  add_layer MIM "capm2" 97 44 (-1) (-1) (-1) (-1);
  add_layer VIA "via4" 71 44 (-1) (-1) (-1) (-1);
  add_layer METAL "met5" 72 20 72 16 72 5
]%Z%list.
(** buildLVSComputedLayers, L80-137 *)
Definition sky130A_computed : list clayer := [
  add_computed_layer DNWELL KRegular "dnwell" 64 18 "dnwell";
  add_computed_layer NWELL KRegular "nwell" 64 20 "nwell";
  add_computed_layer NIMP KRegular "nsd" 93 44 "nsdm";
  add_computed_layer PIMP KRegular "psd" 94 20 "psdm";
  add_computed_layer NTAP KRegular "ntap_conn" 65 144 "tap";
  add_computed_layer PTAP KRegular "ptap_conn" 65 244 "tap";
  add_computed_layer METAL KRegular "poly_con" 66 20 "poly";
  add_computed_layer METAL KRegular "li_con" 67 20 "li1";
  add_computed_layer METAL KRegular "met1_con" 68 20 "met1";
  add_computed_layer METAL KRegular "met2_con" 69 20 "met2";
  add_computed_layer METAL KRegular "met3_ncap" 70 20 "met3";
  add_computed_layer METAL KRegular "met4_ncap" 71 20 "met4";
  add_computed_layer METAL KRegular "met5_con" 72 20 "met5";
  add_computed_layer CONT KRegular "licon_nsd_con" 66 4401 "licon1";
  add_computed_layer CONT KRegular "licon_psd_con" 66 4402 "licon1";
  add_computed_layer CONT KRegular "licon_poly_con" 66 4403 "licon1";
  add_computed_layer VIA KRegular "mcon_con" 67 44 "mcon";
  add_computed_layer VIA KRegular "via1_con" 68 44 "via1";
  add_computed_layer VIA KRegular "via2_con" 69 44 "via2";
  add_computed_layer VIA KRegular "via3_ncap" 70 144 "via3";
  add_computed_layer VIA KRegular "via4_ncap" 71 144 "via4";
  add_computed_layer VIA KCapacitor "via3_cap" 70 244 "via3";
  add_computed_layer VIA KCapacitor "via4_cap" 71 244 "via4";
  add_computed_layer METAL KCapacitor "met3_cap" 70 220 "met3";
  add_computed_layer METAL KCapacitor "met4_cap" 71 220 "met4";
  add_computed_layer MIM KCapacitor "capm" 89 44 "capm";
  add_computed_layer MIM KCapacitor "capm2" 97 44 "capm2";
  add_computed_layer METAL KCapacitor "poly_vpp" 66 200 "poly";
  add_computed_layer METAL KCapacitor "li_vpp" 67 200 "li1";
  add_computed_layer METAL KCapacitor "met1_vpp" 68 200 "met1";
  add_computed_layer METAL KCapacitor "met2_vpp" 69 200 "met2";
  add_computed_layer METAL KCapacitor "met3_vpp" 70 200 "met3";
  add_computed_layer METAL KCapacitor "met4_vpp" 71 200 "met4";
  add_computed_layer METAL KCapacitor "met5_vpp" 72 200 "met5";
  add_computed_layer CONT KCapacitor "licon_vpp" 66 440 "licon1";
  add_computed_layer VIA KCapacitor "mcon_vpp" 67 440 "mcon";
  add_computed_layer VIA KCapacitor "via1_vpp" 68 440 "via";
  add_computed_layer VIA KCapacitor "via2_vpp" 69 440 "via2";
  add_computed_layer VIA KCapacitor "via3_vpp" 70 440 "via3";
  add_computed_layer VIA KCapacitor "via4_vpp" 71 440 "via4";
  add_computed_layer METAL KPin "poly_pin_con" 66 16 "poly.pin";
  add_computed_layer METAL KPin "li_pin_con" 67 16 "li1.pin";
  add_computed_layer METAL KPin "met1_pin_con" 68 16 "met1.pin";
  add_computed_layer METAL KPin "met2_pin_con" 69 16 "met2.pin";
  add_computed_layer METAL KPin "met3_pin_con" 70 16 "met3.pin";
  add_computed_layer METAL KPin "met4_pin_con" 71 16 "met4.pin";
  add_computed_layer METAL KPin "met5_pin_con" 72 16 "met5.pin";
  add_computed_layer METAL KLabel "poly_label" 66 5 "poly.label";
  add_computed_layer METAL KLabel "li_label" 67 5 "li1.label";
  add_computed_layer METAL KLabel "met1_pin_con" 68 5 "met1.label";
  add_computed_layer METAL KLabel "met2_pin_con" 69 5 "met2.label";
  add_computed_layer METAL KLabel "met3_pin_con" 70 5 "met3.label";
  add_computed_layer METAL KLabel "met4_pin_con" 71 5 "met4.label";
  add_computed_layer METAL KLabel "met5_pin_con" 72 5 "met5.label"
]%Z%list.
(** buildProcessStackInfo, L144-275 *)
Definition sky130A_stack : list player := [
  add_substrate "subs" 0.1 0.33 "fox";
  add_nwell "nwell" 0.1 "fox" (Some blank_contact);
  add_diffusion "nsd" 0.323 "fox" (Some (set_contact "licon_nsd_con" "nsdm" "li1" 0.9361 0.17 0.17 0.0));
  add_diffusion "psd" 0.323 "fox" (Some (set_contact "licon_psd_con" "psdm" "li1" 0.9361 0.17 0.17 0.0));
  add_field_oxide "fox" 4.632;
  add_metal "poly" 0.3262 0.18 (Some (set_contact "licon_poly_con" "poly" "li1" 0.4299 0.17 0.17 0.0));
  add_sidewall "iox" 0.39 0.18 0.006 "poly";
  add_sidewall "spnit" 7.5 0.121 0.0431 "iox";
  add_simple "psg" 3.9 "fox";
  add_metal "li1" 0.9361 0.1 (Some (set_contact "mcon_con" "li1" "met1" (1.3761 - (0.9361 + 0.1)) 0.17 0.19 0.0));
  add_conformal "lint" 7.3 0.075 0.075 0.075 "li1";
  add_simple "nild2" 4.05 "lint";
  add_metal "met1" 1.3761 0.36 (Some (set_contact "via1_con" "met1" "met2" 0.27 0.15 0.17 0.055));
  add_sidewall "nild3c" 3.5 0.0 0.03 "met1";
  add_simple "nild3" 4.5 "nild2";
  add_metal "met2" 2.0061 0.36 (Some (set_contact "via2_con" "met2" "met3" 0.42 0.20 0.20 0.04));
  add_sidewall "nild4c" 3.5 0.0 0.03 "met2";
  add_simple "nild4" 4.2 "nild3";
  add_metal "met3_ncap" 2.7861 0.845 (Some (set_contact "via3_ncap" "met3" "met4" 0.39 0.20 0.20 0.06));
  add_metal "met3_cap" 2.7861 0.845 None;
  add_conformal "capild" sky130A_capild_k sky130A_capild_thickness 0.0 0.0 "met3_cap";
  add_simple "nild5" 4.1 "nild4";
  add_metal "capm" (2.7861 + 0.845 + sky130A_capild_thickness) sky130A_capm_thickness (Some (set_contact "via3_cap" "met3" "met4" 0.29 0.20 0.20 0.06));
  add_simple "nild5" 4.1 "nild4";
  add_metal "met4_ncap" 4.0211 0.845 (Some (set_contact "via4_ncap" "met4" "met5" 0.505 0.80 0.80 0.19));
  add_conformal "capild" sky130A_capild_k sky130A_capild_thickness 0.0 0.0 "met4_cap";
  add_metal "met4_cap" 4.0211 0.845 None;
  add_simple "nild6" 4.0 "nild5";
  add_metal "capm2" (4.0211 + 0.845 + sky130A_capild_thickness) sky130A_capm_thickness (Some (set_contact "via4_cap" "met4" "met5" (0.505 - 0.1) 0.80 0.80 0.19));
  add_simple "nild6" 4.0 "nild5";
  add_metal "met5" 5.3711 1.26 None;
  add_sidewall "topox" 3.9 0.09 0.07 "met5";
  add_conformal "topnit" 7.5 0.54 0.4223 0.3777 "topox";
  add_simple "air" 3.0 "topnit"
].
(** buildProcessParasiticsInfo, L314-320 *)
Definition sky130A_layer_resistances : list (string * Qc) := [
  add_resistance "poly" 48200;
  add_resistance "li1" 12800;
  add_resistance "met1" 125;
  add_resistance "met2" 125;
  add_resistance "met3" 47;
  add_resistance "met4" 47;
  add_resistance "met5" 29
].
(** buildProcessParasiticsInfo, L324-326 *)
Definition sky130A_contact_resistances : list contact_resistance := [
  add_contact_resistance "licon_nsd_con" "nsdm" "li1" 185000;
  add_contact_resistance "licon_psd_con" "psdm" "li1" 585000;
  add_contact_resistance "licon_poly_con" "poly" "li1" 152000
].
(** buildProcessParasiticsInfo, L330-335 *)
Definition sky130A_via_resistances : list (string * Qc) := [
  add_resistance "poly" 152000;
  add_resistance "mcon" 9300;
  add_resistance "via" 4500;
  add_resistance "via2" 3410;
  add_resistance "via3" 3410;
  add_resistance "via4" 380
].
(** buildProcessParasiticsInfo, L341-347 *)
Definition sky130A_substrates : list subcap := [
  add_substrate_cap "poly" 106.13 55.27;
  add_substrate_cap "li1" 36.99 40.7;
  add_substrate_cap "met1" 25.78 40.57;
  add_substrate_cap "met2" 17.5 37.76;
  add_substrate_cap "met3" 12.37 40.99;
  add_substrate_cap "met4" 8.42 36.68;
  add_substrate_cap "met5" 6.32 38.85
].
(** buildProcessParasiticsInfo, L355-397 *)
Definition sky130A_overlaps : list ovcap := [
  add_overlap_cap "pwell" "dnwell" 120.0;
  add_overlap_cap "poly" "nwell" 106.13;
  add_overlap_cap "poly" "pwell" 106.13;
  add_overlap_cap "li1" "pwell" 36.99;
  add_overlap_cap "li1" "nwell" 36.99;
  add_overlap_cap "li1" "nwell" 36.99;
  add_overlap_cap "li1" "diff" 55.3;
  add_overlap_cap "li1" "poly" 94.16;
  add_overlap_cap "met1" "pwell" 25.78;
  add_overlap_cap "met1" "nwell" 25.78;
  add_overlap_cap "met1" "diff" 33.6;
  add_overlap_cap "met1" "poly" 44.81;
  add_overlap_cap "met1" "li1" 114.20;
  add_overlap_cap "met2" "nwell" 17.5;
  add_overlap_cap "met2" "pwell" 17.5;
  add_overlap_cap "met2" "diff" 20.8;
  add_overlap_cap "met2" "poly" 24.50;
  add_overlap_cap "met2" "li1" 37.56;
  add_overlap_cap "met2" "met1" 133.86;
  add_overlap_cap "met3" "nwell" 12.37;
  add_overlap_cap "met3" "pwell" 12.37;
  add_overlap_cap "met3" "diff" 14.2;
  add_overlap_cap "met3" "poly" 16.06;
  add_overlap_cap "met3" "li1" 20.79;
  add_overlap_cap "met3" "met1" 34.54;
  add_overlap_cap "met3" "met2" 86.19;
  add_overlap_cap "met4" "nwell" 8.42;
  add_overlap_cap "met4" "pwell" 8.42;
  add_overlap_cap "met4" "diff" 9.41;
  add_overlap_cap "met4" "poly" 10.01;
  add_overlap_cap "met4" "li1" 11.67;
  add_overlap_cap "met4" "met1" 15.03;
  add_overlap_cap "met4" "met2" 20.33;
  add_overlap_cap "met4" "met3" 84.03;
  add_overlap_cap "met5" "nwell" 6.32;
  add_overlap_cap "met5" "pwell" 6.32;
  add_overlap_cap "met5" "diff" 6.88;
  add_overlap_cap "met5" "poly" 7.21;
  add_overlap_cap "met5" "li1" 8.03;
  add_overlap_cap "met5" "met1" 9.48;
  add_overlap_cap "met5" "met2" 11.34;
  add_overlap_cap "met5" "met3" 19.63;
  add_overlap_cap "met5" "met4" 68.33
].
(** buildProcessParasiticsInfo, L400-406 *)
Definition sky130A_sidewalls : list (string * (Qc * Qc)) := [
  add_sidewall_cap "poly" 16.0 0.0;
  add_sidewall_cap "li1" 25.5 0.14;
  add_sidewall_cap "met1" 44 0.25;
  add_sidewall_cap "met2" 50 0.3;
  add_sidewall_cap "met3" 74.0 0.4;
  add_sidewall_cap "met4" 94.0 0.57;
  add_sidewall_cap "met5" 155 0.5
].
(** buildProcessParasiticsInfo, L409-471 *)
Definition sky130A_sideoverlaps : list socap := [
  add_sidewall_overlap_cap "poly" "nwell" 55.27;
  add_sidewall_overlap_cap "poly" "pwell" 55.27;
  add_sidewall_overlap_cap "li1" "nwell" 40.70;
  add_sidewall_overlap_cap "li1" "pwell" 40.70;
  add_sidewall_overlap_cap "li1" "diff" 44.27;
  add_sidewall_overlap_cap "li1" "poly" 51.85;
  add_sidewall_overlap_cap "poly" "li1" 25.14;
  add_sidewall_overlap_cap "met1" "nwell" 40.57;
  add_sidewall_overlap_cap "met1" "pwell" 40.57;
  add_sidewall_overlap_cap "met1" "diff" 43.10;
  add_sidewall_overlap_cap "met1" "poly" 46.72;
  add_sidewall_overlap_cap "poly" "met1" 16.69;
  add_sidewall_overlap_cap "met1" "li1" 59.50;
  add_sidewall_overlap_cap "li1" "met1" 34.70;
  add_sidewall_overlap_cap "met2" "nwell" 37.76;
  add_sidewall_overlap_cap "met2" "pwell" 37.76;
  add_sidewall_overlap_cap "met2" "diff" 39.54;
  add_sidewall_overlap_cap "met2" "poly" 41.22;
  add_sidewall_overlap_cap "poly" "met2" 11.17;
  add_sidewall_overlap_cap "met2" "li1" 46.28;
  add_sidewall_overlap_cap "li1" "met2" 21.74;
  add_sidewall_overlap_cap "met2" "met1" 67.05;
  add_sidewall_overlap_cap "met1" "met2" 48.19;
  add_sidewall_overlap_cap "met3" "nwell" 40.99;
  add_sidewall_overlap_cap "met3" "pwell" 40.99;
  add_sidewall_overlap_cap "met3" "diff" 42.25;
  add_sidewall_overlap_cap "met3" "poly" 43.53;
  add_sidewall_overlap_cap "poly" "met3" 9.18;
  add_sidewall_overlap_cap "met3" "li1" 46.71;
  add_sidewall_overlap_cap "li1" "met3" 15.08;
  add_sidewall_overlap_cap "met3" "met1" 54.81;
  add_sidewall_overlap_cap "met1" "met3" 26.68;
  add_sidewall_overlap_cap "met3" "met2" 69.85;
  add_sidewall_overlap_cap "met2" "met3" 44.43;
  add_sidewall_overlap_cap "met4" "nwell" 36.68;
  add_sidewall_overlap_cap "met4" "pwell" 36.68;
  add_sidewall_overlap_cap "met4" "diff" 37.57;
  add_sidewall_overlap_cap "met4" "poly" 38.11;
  add_sidewall_overlap_cap "poly" "met4" 6.35;
  add_sidewall_overlap_cap "met4" "li1" 39.71;
  add_sidewall_overlap_cap "li1" "met4" 10.14;
  add_sidewall_overlap_cap "met4" "met1" 42.56;
  add_sidewall_overlap_cap "met1" "met4" 16.42;
  add_sidewall_overlap_cap "met4" "met2" 46.38;
  add_sidewall_overlap_cap "met2" "met4" 22.33;
  add_sidewall_overlap_cap "met4" "met3" 70.52;
  add_sidewall_overlap_cap "met3" "met4" 42.64;
  add_sidewall_overlap_cap "met5" "nwell" 38.85;
  add_sidewall_overlap_cap "met5" "pwell" 38.85;
  add_sidewall_overlap_cap "met5" "diff" 39.52;
  add_sidewall_overlap_cap "met5" "poly" 39.91;
  add_sidewall_overlap_cap "poly" "met5" 6.49;
  add_sidewall_overlap_cap "met5" "li1" 41.15;
  add_sidewall_overlap_cap "li1" "met5" 7.64;
  add_sidewall_overlap_cap "met5" "met1" 43.19;
  add_sidewall_overlap_cap "met1" "met5" 12.02;
  add_sidewall_overlap_cap "met5" "met2" 45.59;
  add_sidewall_overlap_cap "met2" "met5" 15.69;
  add_sidewall_overlap_cap "met5" "met3" 54.15;
  add_sidewall_overlap_cap "met3" "met5" 27.84;
  add_sidewall_overlap_cap "met5" "met4" 82.82;
  add_sidewall_overlap_cap "met4" "met5" 46.98
].
(** buildTech, L474-488; side_halo L308 *)
Definition sky130A : technology := Technology sky130A_layers sky130A_computed sky130A_stack (Q2Qc 8.0)
  sky130A_layer_resistances sky130A_contact_resistances sky130A_via_resistances
  sky130A_substrates sky130A_overlaps sky130A_sidewalls sky130A_sideoverlaps.

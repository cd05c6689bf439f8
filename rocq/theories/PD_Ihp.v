(** The technology of the PDK ihp_sg13g2: cxx/gen_tech_pb/pdk/ihp_sg13g2.cpp, one call of a builder function per line, in the order of the source.  Written by tools/gen_pdk.py. *)
From Coq Require Import String ZArith QArith.
From Verif Require Import PyBase PyLib SW_Model TI_Model LV_Model RQ_Model PD_Model.
Local Open Scope string_scope.
Local Open Scope list_scope.
Local Open Scope Q_scope.

(** L158 *)
Definition ihp_capild_k : Q := 6.7.
(** L159 *)
Definition ihp_capild_thickness : Q := 0.04.
(** L161 *)
Definition ihp_poly_z : Q := 0.4.
(** L163 *)
Definition ihp_poly_thickness : Q := 0.16.
(** L164 *)
Definition ihp_met1_thickness : Q := 0.42.
(** L165 *)
Definition ihp_met2_thickness : Q := 0.36.
(** L166 *)
Definition ihp_met3_thickness : Q := 0.49.
(** L167 *)
Definition ihp_met4_thickness : Q := 0.49.
(** L168 *)
Definition ihp_met5_thickness : Q := 0.49.
(** L169 *)
Definition ihp_cmim_cap_thickness : Q := 0.15.
(** L170 *)
Definition ihp_topmet1_thickness : Q := 2.0.
(** L171 *)
Definition ihp_topmet2_thickness : Q := 3.0.
(** L173 *)
Definition ihp_conp_thickness : Q := 0.64 - ihp_poly_thickness.
(** L174 *)
Definition ihp_via1_thickness : Q := 0.54.
(** L175 *)
Definition ihp_via2_thickness : Q := 0.54.
(** L176 *)
Definition ihp_via3_thickness : Q := 0.54.
(** L177 *)
Definition ihp_via4_thickness : Q := 0.54.
(** L178 *)
Definition ihp_topvia1_ncap_thickness : Q := 0.85.
(** L179 *)
Definition ihp_mim_via_thickness : Q := ihp_topvia1_ncap_thickness - ihp_capild_thickness - ihp_cmim_cap_thickness.
(** L180 *)
Definition ihp_topvia2_thickness : Q := 2.8.
(** L182 *)
Definition ihp_met1_z : Q := ihp_poly_z + ihp_poly_thickness + ihp_conp_thickness.
(** L183 *)
Definition ihp_met2_z : Q := ihp_met1_z + ihp_met1_thickness + ihp_via1_thickness.
(** L184 *)
Definition ihp_met3_z : Q := ihp_met2_z + ihp_met2_thickness + ihp_via2_thickness.
(** L185 *)
Definition ihp_met4_z : Q := ihp_met3_z + ihp_met3_thickness + ihp_via3_thickness.
(** L186 *)
Definition ihp_met5_z : Q := ihp_met4_z + ihp_met4_thickness + ihp_via4_thickness.
(** L187 *)
Definition ihp_cmim_z : Q := ihp_met5_z + ihp_met5_thickness + ihp_capild_thickness.
(** L188 *)
Definition ihp_topmet1_z : Q := ihp_met5_z + ihp_met5_thickness + ihp_topvia1_ncap_thickness.
(** L189 *)
Definition ihp_topmet2_z : Q := ihp_topmet1_z + ihp_topmet1_thickness + ihp_topvia2_thickness.
(** buildLayers, L54-73 *)
Definition ihp_layers : list tlayer := [
  add_layer DIFF "Activ" 1 0 1 2 (-1) (-1);
  add_layer NWELL "NWell" 31 0 31 2 (-1) (-1);
  add_layer PWELL "PWell" 46 0 46 2 (-1) (-1);
  add_layer NIMP "nSD" 7 0 (-1) (-1) (-1) (-1);
  add_layer PIMP "pSD" 14 0 (-1) (-1) (-1) (-1);
  add_layer METAL "GatPoly" 5 0 5 2 5 25;
  add_layer CONT "Cont" 6 0 (-1) (-1) (-1) (-1);
  add_layer METAL "Metal1" 8 0 8 2 8 25;
  add_layer VIA "Via1" 19 0 (-1) (-1) (-1) (-1);
  add_layer METAL "Metal2" 10 0 10 2 10 25;
  add_layer VIA "Via2" 29 0 (-1) (-1) (-1) (-1);
  add_layer METAL "Metal3" 30 0 30 2 30 25;
  add_layer VIA "Via3" 49 0 (-1) (-1) (-1) (-1);
  add_layer METAL "Metal4" 50 0 50 2 50 25;
  add_layer VIA "Via4" 66 0 (-1) (-1) (-1) (-1);
  add_layer METAL "Metal5" 67 0 67 2 67 25;
  add_layer VIA "TopVia1" 125 0 (-1) (-1) (-1) (-1);
  add_layer METAL "TopMetal1" 126 0 126 2 126 25;
  add_layer VIA "TopVia2" 133 0 (-1) (-1) (-1) (-1);
  add_layer METAL "TopMetal2" 134 0 134 2 134 25
]%Z%list.
(** buildLVSComputedLayers, L84-137 *)
Definition ihp_computed : list clayer := [
  add_computed_layer PWELL KRegular "pwell" 46 0 "PWell";
  add_computed_layer PWELL KRegular "pwell_sub" 46 0 "PWell";
  add_computed_layer NWELL KRegular "nwell_drw" 31 0 "NWell";
  add_computed_layer NIMP KRegular "nsd_fet" 7 0 "nSD";
  add_computed_layer PIMP KRegular "psd_fet" 14 0 "pSD";
  add_computed_layer NTAP KRegular "ntap" 65 144 "Activ";
  add_computed_layer PTAP KRegular "ptap" 65 244 "Activ";
  add_computed_layer METAL KRegular "poly_con" 5 0 "GatPoly";
  add_computed_layer METAL KRegular "metal1_con" 8 0 "Metal1";
  add_computed_layer METAL KRegular "metal2_con" 10 0 "Metal2";
  add_computed_layer METAL KRegular "metal3_con" 30 0 "Metal3";
  add_computed_layer METAL KRegular "metal4_con" 50 0 "Metal4";
  add_computed_layer METAL KRegular "metal5_n_cap" 67 200 "Metal5";
  add_computed_layer METAL KRegular "topmetal1_con" 126 0 "TopMetal1";
  add_computed_layer METAL KRegular "topmetal2_con" 134 0 "TopMetal2";
  add_computed_layer CONT KRegular "cont_nsd_con" 6 4401 "Cont";
  add_computed_layer CONT KRegular "cont_psd_con" 6 4402 "Cont";
  add_computed_layer CONT KRegular "cont_poly_con" 6 4403 "Cont";
  add_computed_layer VIA KRegular "via1_drw" 19 0 "Via1";
  add_computed_layer VIA KRegular "via2_drw" 29 0 "Via2";
  add_computed_layer VIA KRegular "via3_drw" 49 0 "Via3";
  add_computed_layer VIA KRegular "via4_drw" 66 0 "Via4";
  add_computed_layer VIA KRegular "topvia1_n_cap" 125 200 "TopVia1";
  add_computed_layer VIA KRegular "topvia2_drw" 133 0 "TopVia2";
  add_computed_layer VIA KCapacitor "mim_via" 125 10 "TopVia1";
  add_computed_layer MIM KCapacitor "metal5_cap" 67 100 "Metal5";
  add_computed_layer MIM KCapacitor "cmim_top" 36 0 "<TODO>";
  add_computed_layer METAL KPin "poly_pin_con" 5 2 "GatPoly.pin";
  add_computed_layer METAL KPin "metal1_pin_con" 8 2 "Metal1.pin";
  add_computed_layer METAL KPin "metal2_pin_con" 10 2 "Metal2.pin";
  add_computed_layer METAL KPin "metal3_pin_con" 30 2 "Metal3.pin";
  add_computed_layer METAL KPin "metal4_pin_con" 50 2 "Metal4.pin";
  add_computed_layer METAL KPin "metal5_pin_con" 67 2 "Metal5.pin";
  add_computed_layer METAL KPin "topmetal1_pin_con" 126 2 "TopMetal1.pin";
  add_computed_layer METAL KPin "topmetal2_pin_con" 134 2 "TopMetal2.pin";
  add_computed_layer METAL KLabel "poly_text" 5 25 "GatPoly.text";
  add_computed_layer METAL KLabel "metal1_text" 8 25 "Metal1.text";
  add_computed_layer METAL KLabel "metal2_text" 10 25 "Metal2.text";
  add_computed_layer METAL KLabel "metal3_text" 30 25 "Metal3.text";
  add_computed_layer METAL KLabel "metal4_text" 50 25 "Metal4.text";
  add_computed_layer METAL KLabel "metal5_text" 67 25 "Metal5.text";
  add_computed_layer METAL KLabel "topmetal1_text" 126 25 "TopMetal1.text";
  add_computed_layer METAL KLabel "topmetal2_text" 134 25 "TopMetal2.text"
]%Z%list.
(** buildProcessStackInfo, L144-290 *)
Definition ihp_stack : list player := [
  add_substrate "subs" 0.0 0.28 "fox";
  add_nwell "ntap" 0.0 "fox" None;
  add_diffusion "nSD" 0.0 "fox" (Some (set_contact "cont_nsd_con" "nsd_fet" "metal1_con" (0.4 + 0.64) 0.16 0.18 0.0));
  add_diffusion "pSD" 0.0 "fox" (Some (set_contact "cont_psd_con" "psd_fet" "metal1_con" (0.4 + 0.64) 0.16 0.18 0.0));
  add_field_oxide "fox" 3.95;
  add_metal "GatPoly" ihp_poly_z ihp_poly_thickness (Some (set_contact "cont_poly_con" "poly_con" "metal1_con" ihp_conp_thickness 0.16 0.18 0.0));
  add_conformal "nitride" 6.5 0.05 0.05 0.05 "GatPoly";
  add_simple "ild0" 4.1 "fox";
  add_metal "Metal1" ihp_met1_z ihp_met1_thickness (Some (set_contact "via1_drw" "metal1_con" "metal2_con" ihp_via1_thickness 0.19 0.22 0.0));
  add_simple "ild1" 4.1 "ild0";
  add_metal "Metal2" ihp_met2_z ihp_met2_thickness (Some (set_contact "via2_drw" "metal2_con" "metal3_con" ihp_via1_thickness 0.19 0.22 0.0));
  add_simple "ild2" 4.1 "ild1";
  add_metal "Metal3" ihp_met3_z ihp_met3_thickness (Some (set_contact "via3_drw" "metal3_con" "metal4_con" ihp_via1_thickness 0.19 0.22 0.0));
  add_simple "ild3" 4.1 "ild2";
  add_metal "Metal4" ihp_met4_z ihp_met4_thickness (Some (set_contact "via4_drw" "metal4_con" "metal5_n_cap" ihp_via1_thickness 0.19 0.22 0.0));
  add_simple "ild4" 4.1 "ild3";
  add_metal "metal5_n_cap" ihp_met5_z ihp_met5_thickness (Some (set_contact "topvia1_n_cap" "metal5_n_cap" "topmetal1_con" ihp_topvia1_ncap_thickness 0.42 0.42 0.005));
  add_simple "ildtm1" 4.1 "ild4";
  add_metal "metal5_cap" ihp_met5_z ihp_met5_thickness None;
  add_conformal "ismim" ihp_capild_k ihp_capild_thickness 0.0 0.0 "metal5_cap";
  add_simple "ildtm1" 4.1 "ild4";
  add_metal "cmim_top" ihp_cmim_z ihp_cmim_cap_thickness (Some (set_contact "mim_via" "cmim_top" "topmetal1_con" ihp_mim_via_thickness 0.42 0.42 0.005));
  add_simple "ildtm1" 4.1 "ild4";
  add_metal "TopMetal1" ihp_topmet1_z ihp_topmet1_thickness (Some (set_contact "topvia2_drw" "topmetal1_con" "topmetal2_con" ihp_topvia2_thickness 0.9 1.06 0.5));
  add_simple "ildtm2" 4.1 "ildtm1";
  add_metal "TopMetal2" ihp_topmet2_z ihp_topmet2_thickness None;
  add_conformal "pass1" 4.1 1.5 1.5 0.3 "TopMetal2";
  add_conformal "pass2" 6.6 0.4 0.4 0.3 "pass1";
  add_simple "air" 1.0 "pass2"
].
(** buildProcessParasiticsInfo, L344-351 *)
Definition ihp_layer_resistances : list (string * Qc) := [
  add_resistance "GatPoly" 7000;
  add_resistance "Metal1" 110;
  add_resistance "Metal2" 88;
  add_resistance "Metal3" 88;
  add_resistance "Metal4" 88;
  add_resistance "Metal5" 88;
  add_resistance "TopMetal1" 18;
  add_resistance "TopMetal2" 11
].
(** buildProcessParasiticsInfo, L356-358 *)
Definition ihp_contact_resistances : list contact_resistance := [
  add_contact_resistance "cont_nsd_con" "nsd_fet" "metal1_con" 17000;
  add_contact_resistance "cont_psd_con" "psd_fet" "metal1_con" 17000;
  add_contact_resistance "cont_poly_con" "poly_con" "metal1_con" 15000
].
(** buildProcessParasiticsInfo, L363-368 *)
Definition ihp_via_resistances : list (string * Qc) := [
  add_resistance "Via1" 9000;
  add_resistance "Via2" 9000;
  add_resistance "Via3" 9000;
  add_resistance "Via4" 9000;
  add_resistance "TopVia1" 2200;
  add_resistance "TopVia2" 1100
].
(** buildProcessParasiticsInfo, L373-380 *)
Definition ihp_substrates : list subcap := [
  add_substrate_cap "GatPoly" 87.433 44.537;
  add_substrate_cap "Metal1" 35.015 39.585;
  add_substrate_cap "Metal2" 18.180 34.798;
  add_substrate_cap "Metal3" 11.994 31.352;
  add_substrate_cap "Metal4" 8.948 29.083;
  add_substrate_cap "Metal5" 7.136 27.527;
  add_substrate_cap "TopMetal1" 5.649 37.383;
  add_substrate_cap "TopMetal2" 3.233 31.175
].
(** buildProcessParasiticsInfo, L386-443 *)
Definition ihp_overlaps : list ovcap := [
  add_overlap_cap "GatPoly" "NWell" 87.433;
  add_overlap_cap "GatPoly" "PWell" 87.433;
  add_overlap_cap "Metal1" "PWell" 35.015;
  add_overlap_cap "Metal1" "NWell" 35.015;
  add_overlap_cap "Metal1" "Activ" 58.168;
  add_overlap_cap "Metal1" "Activ" 57.702;
  add_overlap_cap "Metal1" "GatPoly" 78.653;
  add_overlap_cap "Metal2" "PWell" 18.180;
  add_overlap_cap "Metal2" "NWell" 18.180;
  add_overlap_cap "Metal2" "Activ" 22.916;
  add_overlap_cap "Metal2" "Activ" 22.844;
  add_overlap_cap "Metal2" "GatPoly" 25.537;
  add_overlap_cap "Metal2" "Metal1" 67.225;
  add_overlap_cap "Metal3" "NWell" 11.994;
  add_overlap_cap "Metal3" "PWell" 11.994;
  add_overlap_cap "Metal3" "Activ" 13.887;
  add_overlap_cap "Metal3" "Activ" 13.860;
  add_overlap_cap "Metal3" "GatPoly" 14.808;
  add_overlap_cap "Metal3" "Metal1" 23.122;
  add_overlap_cap "Metal3" "Metal2" 67.225;
  add_overlap_cap "Metal4" "NWell" 8.948;
  add_overlap_cap "Metal4" "PWell" 8.948;
  add_overlap_cap "Metal4" "Activ" 9.962;
  add_overlap_cap "Metal4" "Activ" 9.948;
  add_overlap_cap "Metal4" "GatPoly" 10.427;
  add_overlap_cap "Metal4" "Metal1" 13.962;
  add_overlap_cap "Metal4" "Metal2" 23.122;
  add_overlap_cap "Metal4" "Metal3" 67.225;
  add_overlap_cap "Metal5" "NWell" 7.136;
  add_overlap_cap "Metal5" "PWell" 7.136;
  add_overlap_cap "Metal5" "Activ" 7.766;
  add_overlap_cap "Metal5" "Activ" 7.758;
  add_overlap_cap "Metal5" "GatPoly" 8.046;
  add_overlap_cap "Metal5" "Metal1" 10.000;
  add_overlap_cap "Metal5" "Metal2" 13.962;
  add_overlap_cap "Metal5" "Metal3" 23.122;
  add_overlap_cap "Metal5" "Metal4" 67.225;
  add_overlap_cap "TopMetal1" "NWell" 5.649;
  add_overlap_cap "TopMetal1" "PWell" 5.649;
  add_overlap_cap "TopMetal1" "Activ" 6.036;
  add_overlap_cap "TopMetal1" "Activ" 6.031;
  add_overlap_cap "TopMetal1" "GatPoly" 6.204;
  add_overlap_cap "TopMetal1" "Metal1" 7.304;
  add_overlap_cap "TopMetal1" "Metal2" 9.214;
  add_overlap_cap "TopMetal1" "Metal3" 12.475;
  add_overlap_cap "TopMetal1" "Metal4" 19.309;
  add_overlap_cap "TopMetal1" "Metal5" 42.708;
  add_overlap_cap "TopMetal2" "NWell" 3.233;
  add_overlap_cap "TopMetal2" "PWell" 3.233;
  add_overlap_cap "TopMetal2" "Activ" 3.357;
  add_overlap_cap "TopMetal2" "Activ" 3.355;
  add_overlap_cap "TopMetal2" "GatPoly" 3.408;
  add_overlap_cap "TopMetal2" "Metal1" 3.716;
  add_overlap_cap "TopMetal2" "Metal2" 4.154;
  add_overlap_cap "TopMetal2" "Metal3" 4.708;
  add_overlap_cap "TopMetal2" "Metal4" 5.434;
  add_overlap_cap "TopMetal2" "Metal5" 6.425;
  add_overlap_cap "TopMetal2" "TopMetal1" 12.965
].
(** buildProcessParasiticsInfo, L446-453 *)
Definition ihp_sidewalls : list (string * (Qc * Qc)) := [
  add_sidewall_cap "GatPoly" 11.722 (-0.023);
  add_sidewall_cap "Metal1" 28.735 (-0.057);
  add_sidewall_cap "Metal2" 40.981 (-0.033);
  add_sidewall_cap "Metal3" 37.679 (-0.045);
  add_sidewall_cap "Metal4" 49.526 0.004;
  add_sidewall_cap "Metal5" 53.129 0.021;
  add_sidewall_cap "TopMetal1" 162.172 0.343;
  add_sidewall_cap "TopMetal2" 227.323 1.893
].
(** buildProcessParasiticsInfo, L456-543 *)
Definition ihp_sideoverlaps : list socap := [
  add_sidewall_overlap_cap "GatPoly" "NWell" 44.537;
  add_sidewall_overlap_cap "GatPoly" "PWell" 44.537;
  add_sidewall_overlap_cap "Metal1" "NWell" 39.585;
  add_sidewall_overlap_cap "Metal1" "PWell" 39.585;
  add_sidewall_overlap_cap "Metal1" "Activ" 44.749;
  add_sidewall_overlap_cap "Metal1" "Activ" 45.041;
  add_sidewall_overlap_cap "Metal1" "GatPoly" 49.378;
  add_sidewall_overlap_cap "GatPoly" "Metal1" 23.229;
  add_sidewall_overlap_cap "Metal2" "NWell" 34.798;
  add_sidewall_overlap_cap "Metal2" "PWell" 34.798;
  add_sidewall_overlap_cap "Metal2" "Activ" 36.950;
  add_sidewall_overlap_cap "Metal2" "Activ" 36.919;
  add_sidewall_overlap_cap "Metal2" "GatPoly" 37.616;
  add_sidewall_overlap_cap "GatPoly" "Metal2" 10.801;
  add_sidewall_overlap_cap "Metal2" "Metal1" 49.543;
  add_sidewall_overlap_cap "Metal1" "Metal2" 31.073;
  add_sidewall_overlap_cap "Metal3" "NWell" 31.352;
  add_sidewall_overlap_cap "Metal3" "PWell" 31.352;
  add_sidewall_overlap_cap "Metal3" "Activ" 32.271;
  add_sidewall_overlap_cap "Metal3" "Activ" 32.495;
  add_sidewall_overlap_cap "Metal3" "GatPoly" 32.795;
  add_sidewall_overlap_cap "GatPoly" "Metal3" 7.068;
  add_sidewall_overlap_cap "Metal3" "Metal1" 37.009;
  add_sidewall_overlap_cap "Metal1" "Metal3" 17.349;
  add_sidewall_overlap_cap "Metal3" "Metal2" 49.537;
  add_sidewall_overlap_cap "Metal2" "Metal3" 36.907;
  add_sidewall_overlap_cap "Metal4" "NWell" 29.083;
  add_sidewall_overlap_cap "Metal4" "PWell" 29.083;
  add_sidewall_overlap_cap "Metal4" "Activ" 29.755;
  add_sidewall_overlap_cap "Metal4" "Activ" 29.942;
  add_sidewall_overlap_cap "Metal4" "GatPoly" 30.101;
  add_sidewall_overlap_cap "GatPoly" "Metal4" 5.240;
  add_sidewall_overlap_cap "Metal4" "Metal1" 32.162;
  add_sidewall_overlap_cap "Metal1" "Metal4" 12.398;
  add_sidewall_overlap_cap "Metal4" "Metal2" 36.335;
  add_sidewall_overlap_cap "Metal2" "Metal4" 22.327;
  add_sidewall_overlap_cap "Metal4" "Metal3" 49.537;
  add_sidewall_overlap_cap "Metal3" "Metal4" 40.019;
  add_sidewall_overlap_cap "Metal5" "NWell" 27.527;
  add_sidewall_overlap_cap "Metal5" "PWell" 27.527;
  add_sidewall_overlap_cap "Metal5" "Activ" 28.227;
  add_sidewall_overlap_cap "Metal5" "Activ" 28.221;
  add_sidewall_overlap_cap "Metal5" "GatPoly" 28.414;
  add_sidewall_overlap_cap "GatPoly" "Metal5" 4.178;
  add_sidewall_overlap_cap "Metal5" "Metal1" 29.935;
  add_sidewall_overlap_cap "Metal1" "Metal5" 9.725;
  add_sidewall_overlap_cap "Metal5" "Metal2" 32.116;
  add_sidewall_overlap_cap "Metal2" "Metal5" 16.534;
  add_sidewall_overlap_cap "Metal5" "Metal3" 36.971;
  add_sidewall_overlap_cap "Metal3" "Metal5" 24.785;
  add_sidewall_overlap_cap "Metal5" "Metal4" 49.517;
  add_sidewall_overlap_cap "Metal4" "Metal5" 41.956;
  add_sidewall_overlap_cap "TopMetal1" "NWell" 37.383;
  add_sidewall_overlap_cap "TopMetal1" "PWell" 37.383;
  add_sidewall_overlap_cap "TopMetal1" "Activ" 38.084;
  add_sidewall_overlap_cap "TopMetal1" "Activ" 38.085;
  add_sidewall_overlap_cap "TopMetal1" "GatPoly" 38.376;
  add_sidewall_overlap_cap "GatPoly" "TopMetal1" 3.316;
  add_sidewall_overlap_cap "TopMetal1" "Metal1" 39.678;
  add_sidewall_overlap_cap "Metal1" "TopMetal1" 7.669;
  add_sidewall_overlap_cap "TopMetal1" "Metal2" 42.268;
  add_sidewall_overlap_cap "Metal2" "TopMetal1" 12.649;
  add_sidewall_overlap_cap "TopMetal1" "Metal3" 46.611;
  add_sidewall_overlap_cap "Metal3" "TopMetal1" 17.848;
  add_sidewall_overlap_cap "TopMetal1" "Metal4" 52.657;
  add_sidewall_overlap_cap "Metal4" "TopMetal1" 24.526;
  add_sidewall_overlap_cap "TopMetal1" "Metal5" 65.859;
  add_sidewall_overlap_cap "Metal5" "TopMetal1" 36.377;
  add_sidewall_overlap_cap "TopMetal2" "NWell" 31.175;
  add_sidewall_overlap_cap "TopMetal2" "PWell" 31.175;
  add_sidewall_overlap_cap "TopMetal2" "Activ" 31.484;
  add_sidewall_overlap_cap "TopMetal2" "Activ" 30.835;
  add_sidewall_overlap_cap "TopMetal2" "GatPoly" 30.971;
  add_sidewall_overlap_cap "GatPoly" "TopMetal2" 1.909;
  add_sidewall_overlap_cap "TopMetal2" "Metal1" 32.318;
  add_sidewall_overlap_cap "Metal1" "TopMetal2" 4.344;
  add_sidewall_overlap_cap "TopMetal2" "Metal2" 33.245;
  add_sidewall_overlap_cap "Metal2" "TopMetal2" 6.975;
  add_sidewall_overlap_cap "TopMetal2" "Metal3" 34.339;
  add_sidewall_overlap_cap "Metal3" "TopMetal2" 9.381;
  add_sidewall_overlap_cap "TopMetal2" "Metal4" 35.630;
  add_sidewall_overlap_cap "Metal4" "TopMetal2" 11.825;
  add_sidewall_overlap_cap "TopMetal2" "Metal5" 37.206;
  add_sidewall_overlap_cap "Metal5" "TopMetal2" 14.415;
  add_sidewall_overlap_cap "TopMetal2" "TopMetal1" 44.735;
  add_sidewall_overlap_cap "TopMetal1" "TopMetal2" 33.071
].
(** buildTech, L546-560; side_halo L338 *)
Definition ihp : technology := Technology ihp_layers ihp_computed ihp_stack (Q2Qc 8)
  ihp_layer_resistances ihp_contact_resistances ihp_via_resistances
  ihp_substrates ihp_overlaps ihp_sidewalls ihp_sideoverlaps.

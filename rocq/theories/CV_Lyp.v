(** The names and sources of the layers in the layer properties files of the shipped PDKs: every <properties> element directly
    below the root of pdk/sky130A/libs.tech/kpex/sky130A.lyp and pdk/ihp_sg13g2/libs.tech/kpex/sg13g2.lyp, in order
    (<name> and <source> of each). *)
From Coq Require Import String List.
Import ListNotations.
Local Open Scope string_scope.

Definition sky130A_lyp : list (string * string) := [
  ("prBoundary.boundary - 235/4", "235/4@1");
  ("pwell.drawing - 64/44", "64/44@1");
  ("pwell.pin - 122/16", "122/16@1");
  ("pwell.label - 64/59", "64/59@1");
  ("pwell.res - 64/13", "64/13@1");
  ("pwell.cut - 64/14", "64/14@1");
  ("pwelliso.pin - 44/16", "44/16@1");
  ("pwelliso.label - 44/5", "44/5@1");
  ("nwell.drawing - 64/20", "64/20@1");
  ("nwell.net - 84/23", "84/23@1");
  ("nwell.pin - 64/16", "64/16@1");
  ("nwell.label - 64/5", "64/5@1");
  ("dnwell.drawing - 64/18", "64/18@1");
  ("vhvi.drawing - 74/21", "74/21@1");
  ("diff.drawing - 65/20", "65/20@1");
  ("diff.res - 65/13", "65/13@1");
  ("diff.cut - 65/14", "65/14@1");
  ("diff.pin - 65/16", "65/16@1");
  ("diff.label - 65/6", "65/6@1");
  ("diff.net - 65/23", "65/23@1");
  ("diff.boundary - 65/4", "65/4@1");
  ("diff.hv - 65/8", "65/8@1");
  ("tap.drawing - 65/44", "65/44@1");
  ("tap.pin - 65/48", "65/48@1");
  ("tap.net - 65/41", "65/41@1");
  ("tap.boundary - 65/60", "65/60@1");
  ("tap.label - 65/5", "65/5@1");
  ("psdm.drawing - 94/20", "94/20@1");
  ("nsdm.drawing - 93/44", "93/44@1");
  ("poly.drawing - 66/20", "66/20@1");
  ("poly.pin - 66/16", "66/16@1");
  ("poly.res - 66/13", "66/13@1");
  ("poly.cut - 66/14", "66/14@1");
  ("poly.gate - 66/9", "66/9@1");
  ("poly.label - 66/5", "66/5@1");
  ("poly.boundary - 66/4", "66/4@1");
  ("poly.probe - 66/25", "66/25@1");
  ("poly.short - 66/15", "66/15@1");
  ("poly.net - 66/23", "66/23@1");
  ("poly.model - 66/83", "66/83@1");
  ("ldntm.drawing - 11/44", "11/44@1");
  ("lvtn.drawing - 125/44", "125/44@1");
  ("hvtp.drawing - 78/44", "78/44@1");
  ("hvtr.drawing - 18/20", "18/20@1");
  ("tunm.drawing - 80/20", "80/20@1");
  ("licon1.drawing - 66/44", "66/44@1");
  ("licon1.boundary - 66/60", "66/60@1");
  ("licon1.pin - 66/58", "66/58@1");
  ("licon1.net - 66/41", "66/41@1");
  ("npc.drawing - 95/20", "95/20@1");
  ("li1.drawing - 67/20", "67/20@1");
  ("li1.pin - 67/16", "67/16@1");
  ("li1.res - 67/13", "67/13@1");
  ("li1.cut - 67/14", "67/14@1");
  ("li1.label - 67/5", "67/5@1");
  ("li1.net - 67/23", "67/23@1");
  ("li1.boundary - 67/4", "67/4@1");
  ("li1.blockage - 67/10", "67/10@1");
  ("li1.short - 67/15", "67/15@1");
  ("li1.probe - 67/25", "67/25@1");
  ("mcon.drawing - 67/44", "67/44@1");
  ("mcon.boundary - 67/60", "67/60@1");
  ("mcon.pin - 67/48", "67/48@1");
  ("mcon.net - 67/41", "67/41@1");
  ("met1.drawing - 68/20", "68/20@1");
  ("met1.res - 68/13", "68/13@1");
  ("met1.cut - 68/14", "68/14@1");
  ("met1.pin - 68/16", "68/16@1");
  ("met1.label - 68/5", "68/5@1");
  ("met1.net - 68/23", "68/23@1");
  ("met1.boundary - 68/4", "68/4@1");
  ("met1.blockage - 68/10", "68/10@1");
  ("met1.short - 68/15", "68/15@1");
  ("met1.probe - 68/25", "68/25@1");
  ("met1.option1 - 68/32", "68/32@1");
  ("met1.option2 - 68/33", "68/33@1");
  ("met1.option3 - 68/34", "68/34@1");
  ("met1.option4 - 68/35", "68/35@1");
  ("met1.option5 - 68/36", "68/36@1");
  ("met1.option6 - 68/37", "68/37@1");
  ("met1.option7 - 68/38", "68/38@1");
  ("met1.option8 - 68/39", "68/39@1");
  ("via.drawing - 68/44", "68/44@1");
  ("via.boundary - 68/60", "68/60@1");
  ("via.net - 68/41", "68/41@1");
  ("via.pin - 68/58", "68/58@1");
  ("met2.drawing - 69/20", "69/20@1");
  ("met2.res - 69/13", "69/13@1");
  ("met2.cut - 69/14", "69/14@1");
  ("met2.pin - 69/16", "69/16@1");
  ("met2.label - 69/5", "69/5@1");
  ("met2.net - 69/23", "69/23@1");
  ("met2.boundary - 69/4", "69/4@1");
  ("met2.blockage - 69/10", "69/10@1");
  ("met2.short - 69/15", "69/15@1");
  ("met2.probe - 69/25", "69/25@1");
  ("met2.option1 - 69/32", "69/32@1");
  ("met2.option2 - 69/33", "69/33@1");
  ("met2.option3 - 69/34", "69/34@1");
  ("met2.option4 - 69/35", "69/35@1");
  ("met2.option5 - 69/36", "69/36@1");
  ("met2.option6 - 69/37", "69/37@1");
  ("met2.option7 - 69/38", "69/38@1");
  ("met2.option8 - 69/39", "69/39@1");
  ("via2.drawing - 69/44", "69/44@1");
  ("via2.boundary - 69/60", "69/60@1");
  ("via2.pin - 69/58", "69/58@1");
  ("via2.net - 69/41", "69/41@1");
  ("met3.drawing - 70/20", "70/20@1");
  ("met3.res - 70/13", "70/13@1");
  ("met3.cut - 70/14", "70/14@1");
  ("met3.pin - 70/16", "70/16@1");
  ("met3.label - 70/5", "70/5@1");
  ("met3.net - 70/23", "70/23@1");
  ("met3.boundary - 70/4", "70/4@1");
  ("met3.blockage - 70/10", "70/10@1");
  ("met3.short - 70/15", "70/15@1");
  ("met3.fuse - 70/17", "70/17@1");
  ("met3.probe - 70/25", "70/25@1");
  ("met3.option1 - 70/32", "70/32@1");
  ("met3.option2 - 70/33", "70/33@1");
  ("met3.option3 - 70/34", "70/34@1");
  ("met3.option4 - 70/35", "70/35@1");
  ("met3.option5 - 70/36", "70/36@1");
  ("met3.option6 - 70/37", "70/37@1");
  ("met3.option7 - 70/38", "70/38@1");
  ("met3.option8 - 70/39", "70/39@1");
  ("via3.drawing - 70/44", "70/44@1");
  ("via3.boundary - 70/60", "70/60@1");
  ("via3.pin - 70/48", "70/48@1");
  ("via3.net - 70/41", "70/41@1");
  ("met4.drawing - 71/20", "71/20@1");
  ("met4.res - 71/13", "71/13@1");
  ("met4.cut - 71/14", "71/14@1");
  ("met4.pin - 71/16", "71/16@1");
  ("met4.label - 71/5", "71/5@1");
  ("met4.net - 71/23", "71/23@1");
  ("met4.boundary - 71/4", "71/4@1");
  ("met4.blockage - 71/10", "71/10@1");
  ("met4.short - 71/15", "71/15@1");
  ("met4.fuse - 71/17", "71/17@1");
  ("met4.probe - 71/25", "71/25@1");
  ("met4.option1 - 71/32", "71/32@1");
  ("met4.option2 - 71/33", "71/33@1");
  ("met4.option3 - 71/34", "71/34@1");
  ("met4.option4 - 71/35", "71/35@1");
  ("met4.option5 - 71/36", "71/36@1");
  ("met4.option6 - 71/37", "71/37@1");
  ("met4.option7 - 71/38", "71/38@1");
  ("met4.option8 - 71/39", "71/39@1");
  ("via4.drawing - 71/44", "71/44@1");
  ("via4.boundary - 71/60", "71/60@1");
  ("via4.pin - 71/48", "71/48@1");
  ("via4.net - 71/41", "71/41@1");
  ("met5.drawing - 72/20", "72/20@1");
  ("met5.res - 72/13", "72/13@1");
  ("met5.cut - 72/14", "72/14@1");
  ("met5.pin - 72/16", "72/16@1");
  ("met5.label - 72/5", "72/5@1");
  ("met5.net - 72/23", "72/23@1");
  ("met5.boundary - 72/4", "72/4@1");
  ("met5.blockage - 72/10", "72/10@1");
  ("met5.short - 72/15", "72/15@1");
  ("met5.fuse - 72/17", "72/17@1");
  ("met5.probe - 72/25", "72/25@1");
  ("met5.option1 - 72/32", "72/32@1");
  ("met5.option2 - 72/33", "72/33@1");
  ("met5.option3 - 72/34", "72/34@1");
  ("met5.option4 - 72/35", "72/35@1");
  ("met5.option5 - 72/36", "72/36@1");
  ("met5.option6 - 72/37", "72/37@1");
  ("met5.option7 - 72/38", "72/38@1");
  ("met5.option8 - 72/39", "72/39@1");
  ("nsm.drawing - 61/20", "61/20@1");
  ("pad.drawing - 76/20", "76/20@1");
  ("pad.label - 76/5", "76/5@1");
  ("pad.pin - 76/16", "76/16@1");
  ("pnp.drawing - 82/44", "82/44@1");
  ("pnp.label - 82/59", "82/59@1");
  ("npn.drawing - 82/20", "82/20@1");
  ("npn.label - 82/5", "82/5@1");
  ("rpm.drawing - 86/20", "86/20@1");
  ("hvi.drawing - 75/20", "75/20@1");
  ("capacitor.drawing - 82/64", "82/64@1");
  ("ncm.drawing - 92/44", "92/44@1");
  ("cncm.drawing - 96/44", "96/44@1");
  ("cncm.mask - 17/0", "17/0@1");
  ("pmm.drawing - 85/44", "85/44@1");
  ("pmm2.drawing - 77/20", "77/20@1");
  ("rdl.drawing - 74/20", "74/20@1");
  ("rdl.pin - 74/16", "74/16@1");
  ("rdl.label - 74/5", "74/5@1");
  ("rdl.res - 74/13", "74/13@1");
  ("rdl.cut - 74/14", "74/14@1");
  ("rdl.short - 74/15", "74/15@1");
  ("rdl.option1 - 89/32", "89/32@1");
  ("rdl.option2 - 89/33", "89/33@1");
  ("rdl.option3 - 89/34", "89/34@1");
  ("rdl.option4 - 89/35", "89/35@1");
  ("rdl.option5 - 89/36", "89/36@1");
  ("rdl.option6 - 89/37", "89/37@1");
  ("rdl.option7 - 89/38", "89/38@1");
  ("rdl.option8 - 89/39", "89/39@1");
  ("ubm.drawing - 127/21", "127/21@1");
  ("bump.drawing - 127/22", "127/22@1");
  ("inductor.drawing - 82/24", "82/24@1");
  ("inductor.label - 82/25", "82/25@1");
  ("inductor.term1 - 82/26", "82/26@1");
  ("inductor.term2 - 82/27", "82/27@1");
  ("inductor.term3 - 82/28", "82/28@1");
  ("capm.drawing - 89/44", "89/44@1");
  ("capm2.drawing - 97/44", "97/44@1");
  ("cfom.drawing - 22/20", "22/20@1");
  ("cfom.mask - 23/0", "23/0@1");
  ("cfom.maskAdd - 22/21", "22/21@1");
  ("cfom.maskDrop - 22/22", "22/22@1");
  ("cfom.fill - 23/28", "23/28@1");
  ("cfom.waffleDrop - 22/24", "22/24@1");
  ("fom.dummy - 22/23", "22/23@1");
  ("cnwm.drawing - 109/44", "109/44@1");
  ("cnwm.mask - 21/0", "21/0@1");
  ("cnwm.maskAdd - 109/43", "109/43@1");
  ("cnwm.maskDrop - 109/42", "109/42@1");
  ("cdnm.drawing - 110/20", "110/20@1");
  ("cdnm.mask - 48/0", "48/0@1");
  ("cdnm.maskAdd - 110/21", "110/21@1");
  ("cdnm.maskDrop - 110/22", "110/22@1");
  ("clvtnm.drawing - 25/44", "25/44@1");
  ("clvtnm.mask - 25/0", "25/0@1");
  ("clvtnm.maskAdd - 25/43", "25/43@1");
  ("clvtnm.maskDrop - 25/42", "25/42@1");
  ("chvtpm.drawing - 88/44", "88/44@1");
  ("chvtpm.mask - 97/0", "97/0@1");
  ("chvtpm.maskAdd - 97/43", "97/43@1");
  ("chvtpm.maskDrop - 97/42", "97/42@1");
  ("chvtrm.drawing - 98/44", "98/44@1");
  ("chvtrm.mask - 98/0", "98/0@1");
  ("chvtrm.maskAdd - 98/43", "98/43@1");
  ("chvtrm.maskDrop - 98/42", "98/42@1");
  ("ctunm.drawing - 96/20", "96/20@1");
  ("ctunm.mask - 20/0", "20/0@1");
  ("ctunm.maskAdd - 96/21", "96/21@1");
  ("ctunm.maskDrop - 96/22", "96/22@1");
  ("conom.drawing - 87/44", "87/44@1");
  ("conom.mask - 88/0", "88/0@1");
  ("conom.maskAdd - 87/43", "87/43@1");
  ("conom.maskDrop - 87/42", "87/42@1");
  ("cnsdm.drawing - 29/20", "29/20@1");
  ("cnsdm.mask - 30/0", "30/0@1");
  ("cnsdm.maskAdd - 29/21", "29/21@1");
  ("cnsdm.maskDrop - 29/22", "29/22@1");
  ("cpsdm.drawing - 31/20", "31/20@1");
  ("cpsdm.mask - 32/0", "32/0@1");
  ("cpsdm.maskAdd - 31/21", "31/21@1");
  ("cpsdm.maskDrop - 31/22", "31/22@1");
  ("cntm.drawing - 26/20", "26/20@1");
  ("cntm.mask - 27/0", "27/0@1");
  ("cntm.maskAdd - 26/21", "26/21@1");
  ("cntm.maskDrop - 26/22", "26/22@1");
  ("hvntm.drawing - 125/20", "125/20@1");
  ("chvntm.drawing - 38/20", "38/20@1");
  ("chvntm.mask - 39/0", "39/0@1");
  ("chvntm.maskAdd - 38/21", "38/21@1");
  ("chvntm.maskDrop - 38/22", "38/22@1");
  ("cldntm.drawing - 11/20", "11/20@1");
  ("cldntm.mask - 11/0", "11/0@1");
  ("clvom.drawing - 45/20", "45/20@1");
  ("clvom.mask - 46/0", "46/0@1");
  ("clvom.maskAdd - 45/21", "45/21@1");
  ("clvom.maskDrop - 45/22", "45/22@1");
  ("cp1m.drawing - 33/44", "33/44@1");
  ("cp1m.mask - 28/0", "28/0@1");
  ("cp1m.maskAdd - 33/43", "33/43@1");
  ("cp1m.maskDrop - 33/42", "33/42@1");
  ("cp1m.fill - 28/28", "28/28@1");
  ("cp1m.waffleDrop - 33/24", "33/24@1");
  ("cli1m.drawing - 115/44", "115/44@1");
  ("cli1m.mask - 56/0", "56/0@1");
  ("cli1m.maskAdd - 115/43", "115/43@1");
  ("cli1m.maskDrop - 115/42", "115/42@1");
  ("cli1m.fill - 56/28", "56/28@1");
  ("clicm1.drawing - 106/44", "106/44@1");
  ("clicm1.mask - 43/0", "43/0@1");
  ("clicm1.maskAdd - 106/43", "106/43@1");
  ("clicm1.maskDrop - 106/42", "106/42@1");
  ("cmm1.drawing - 62/20", "62/20@1");
  ("cmm1.mask - 36/0", "36/0@1");
  ("cmm1.maskAdd - 62/21", "62/21@1");
  ("cmm1.maskDrop - 62/22", "62/22@1");
  ("cmm1.fill - 36/28", "36/28@1");
  ("cmm1.waffleDrop - 62/24", "62/24@1");
  ("cviam.drawing - 105/20", "105/20@1");
  ("cviam.mask - 40/0", "40/0@1");
  ("cviam.maskAdd - 105/21", "105/21@1");
  ("cviam.maskDrop - 105/22", "105/22@1");
  ("cmm2.drawing - 105/44", "105/44@1");
  ("cmm2.mask - 41/0", "41/0@1");
  ("cmm2.maskAdd - 105/43", "105/43@1");
  ("cmm2.maskDrop - 105/42", "105/42@1");
  ("cmm2.fill - 41/28", "41/28@1");
  ("cmm2.waffleDrop - 105/52", "105/52@1");
  ("cviam2.drawing - 108/20", "108/20@1");
  ("cviam2.mask - 44/0", "44/0@1");
  ("cviam2.maskAdd - 108/21", "108/21@1");
  ("cviam2.maskDrop - 108/22", "108/22@1");
  ("cmm3.drawing - 107/20", "107/20@1");
  ("cmm3.mask - 34/0", "34/0@1");
  ("cmm3.maskAdd - 107/21", "107/21@1");
  ("cmm3.maskDrop - 107/22", "107/22@1");
  ("cmm3.fill - 34/28", "34/28@1");
  ("cmm3.waffleDrop - 107/24", "107/24@1");
  ("cnpc.drawing - 44/20", "44/20@1");
  ("cnpc.mask - 49/0", "49/0@1");
  ("cnpc.maskAdd - 44/43", "44/43@1");
  ("cnpc.maskDrop - 44/42", "44/42@1");
  ("cviam3.drawing - 112/20", "112/20@1");
  ("cviam3.mask - 50/0", "50/0@1");
  ("cviam3.maskAdd - 112/21", "112/21@1");
  ("cviam3.maskDrop - 112/22", "112/22@1");
  ("cnsm.mask - 22/0", "22/0@1");
  ("cpdm.drawing - 104/44", "104/44@1");
  ("cpdm.mask - 37/0", "37/0@1");
  ("cpdm.maskAdd - 104/43", "104/43@1");
  ("cpdm.maskDrop - 104/42", "104/42@1");
  ("cpmm.drawing - 91/44", "91/44@1");
  ("cpbo.mask - 99/0", "99/0@1");
  ("cmm4.mask - 51/0", "51/0@1");
  ("cmm4.maskAdd - 112/43", "112/43@1");
  ("cmm4.maskDrop - 112/42", "112/42@1");
  ("cmm4.fill - 51/28", "51/28@1");
  ("cmm4.waffleDrop - 112/4", "112/4@1");
  ("cviam4.drawing - 117/20", "117/20@1");
  ("cviam4.mask - 58/0", "58/0@1");
  ("cviam4.maskAdd - 117/21", "117/21@1");
  ("cviam4.maskDrop - 117/22", "117/22@1");
  ("cmm5.mask - 59/0", "59/0@1");
  ("cmm5.fill - 59/28", "59/28@1");
  ("cmm5.waffleDrop - 117/4", "117/4@1");
  ("target.drawing - 76/44", "76/44@1");
  ("cctm1.drawing - 101/44", "101/44@1");
  ("cctm1.mask - 35/0", "35/0@1");
  ("cctm1.maskAdd - 101/43", "101/43@1");
  ("cctm1.maskDrop - 101/42", "101/42@1");
  ("crpm.drawing - 53/44", "53/44@1");
  ("crpm.mask - 96/0", "96/0@1");
  ("crpm.maskAdd - 53/43", "53/43@1");
  ("crpm.maskDrop - 53/42", "53/42@1");
  ("ccu1m.mask - 93/0", "93/0@1");
  ("cpmm2.mask - 94/0", "94/0@1");
  ("cubm.mask - 100/0", "100/0@1");
  ("cbump.mask - 101/0", "101/0@1");
  ("overlap.drawing - 90/20", "90/20@1");
  ("overlap.boundary - 90/4", "90/4@1");
  ("areaid.lowTapDensity - 81/14", "81/14@1");
  ("areaid.notCritSide - 81/15", "81/15@1");
  ("areaid.injection - 81/17", "81/17@1");
  ("areaid.rfdiode - 81/125", "81/125@1");
  ("areaid.seal - 81/1", "81/1@1");
  ("areaid.core - 81/2", "81/2@1");
  ("areaid.frame - 81/3", "81/3@1");
  ("areaid.esd - 81/19", "81/19@1");
  ("areaid.dieCut - 81/11", "81/11@1");
  ("areaid.moduleCut - 81/10", "81/10@1");
  ("areaid.frameRect - 81/12", "81/12@1");
  ("areaid.substrateCut - 81/53", "81/53@1");
  ("areaid.diode - 81/23", "81/23@1");
  ("areaid.standardc - 81/4", "81/4@1");
  ("areaid.deadZon - 81/50", "81/50@1");
  ("areaid.critCorner - 81/51", "81/51@1");
  ("areaid.critSid - 81/52", "81/52@1");
  ("areaid.opcDrop - 81/54", "81/54@1");
  ("areaid.waffleWindow - 81/13", "81/13@1");
  ("areaid.extendedDrain - 81/57", "81/57@1");
  ("areaid.lvNative - 81/60", "81/60@1");
  ("areaid.photo - 81/81", "81/81@1");
  ("areaid.etest - 81/101", "81/101@1");
  ("areaid.hvnwell - 81/63", "81/63@1");
  ("areaid.rdlprobepad - 81/27", "81/27@1");
  ("areaid.sigPadDiff - 81/6", "81/6@1");
  ("areaid.sigPadWell - 81/7", "81/7@1");
  ("areaid.sigPadMetNtr - 81/8", "81/8@1");
  ("areaid.analog - 81/79", "81/79@1");
  ("prune.drawing - 84/44", "84/44@1");
  ("padCenter.drawing - 81/20", "81/20@1");
  ("met1.psa1 - 68/88", "68/88@1");
  ("met2.psa1 - 69/88", "69/88@1");
  ("met3.psa1 - 70/88", "70/88@1");
  ("met4.psa1 - 71/88", "71/88@1");
  ("met5.psa1 - 72/88", "72/88@1");
  ("met1.psa2 - 68/89", "68/89@1");
  ("met2.psa2 - 69/89", "69/89@1");
  ("met3.psa2 - 70/89", "70/89@1");
  ("met4.psa2 - 71/89", "71/89@1");
  ("met5.psa2 - 72/89", "72/89@1");
  ("met1.psa3 - 68/90", "68/90@1");
  ("met2.psa3 - 69/90", "69/90@1");
  ("met3.psa3 - 70/90", "70/90@1");
  ("met4.psa3 - 71/90", "71/90@1");
  ("met5.psa3 - 72/90", "72/90@1");
  ("met1.psa4 - 68/91", "68/91@1");
  ("met2.psa4 - 69/91", "69/91@1");
  ("met3.psa4 - 70/91", "70/91@1");
  ("met4.psa4 - 71/91", "71/91@1");
  ("met5.psa4 - 72/91", "72/91@1");
  ("met1.psa5 - 68/92", "68/92@1");
  ("met2.psa5 - 69/92", "69/92@1");
  ("met3.psa5 - 70/92", "70/92@1");
  ("met4.psa5 - 71/92", "71/92@1");
  ("met5.psa5 - 72/92", "72/92@1");
  ("met1.psa6 - 68/93", "68/93@1");
  ("met2.psa6 - 69/93", "69/93@1");
  ("met3.psa6 - 70/93", "70/93@1");
  ("met4.psa6 - 71/93", "71/93@1");
  ("met5.psa6 - 72/93", "72/93@1");
  ("rdl.psa1 - 74/88", "74/88@1");
  ("rdl.psa2 - 74/89", "74/89@1");
  ("rdl.psa3 - 74/90", "74/90@1");
  ("rdl.psa4 - 74/91", "74/91@1");
  ("rdl.psa5 - 74/92", "74/92@1");
  ("rdl.psa6 - 74/93", "74/93@1");
  ("blanking.drawing - 124/40", "124/40@1");
  ("urpm - 79/20", "79/20@1");
  ("text.drawing - 83/44", "83/44@1");
  ("boundary - 235/0", "235/0@1");
  ("boundary - 236/0", "236/0@1");
  ("boundary - 235/252", "235/252@1");
  ("boundary - 235/250", "235/250@1");
  ("r1c.drawing - 201/20", "201/20@1");
  ("v20.drawing - 74/22", "74/22@1")
].
Definition sg13g2_lyp : list (string * string) := [
  ("Substrate.drawing", "40/0");
  ("Substrate.text", "40/25");
  ("Activ.drawing", "1/0");
  ("Activ.label", "1/1");
  ("Activ.pin", "1/2");
  ("Activ.net", "1/3");
  ("Activ.boundary", "1/4");
  ("Activ.lvs", "1/19");
  ("Activ.mask", "1/20");
  ("Activ.filler", "1/22");
  ("Activ.nofill", "1/23");
  ("Activ.OPC", "1/26");
  ("Activ.iOPC", "1/27");
  ("Activ.noqrc", "1/28");
  ("GatPoly.drawing", "5/0");
  ("GatPoly.label", "5/1");
  ("GatPoly.pin", "5/2");
  ("GatPoly.net", "5/3");
  ("GatPoly.boundary", "5/4");
  ("GatPoly.filler", "5/22");
  ("GatPoly.nofill", "5/23");
  ("GatPoly.OPC", "5/26");
  ("GatPoly.iOPC", "5/27");
  ("GatPoly.noqrc", "5/28");
  ("PolyRes.drawing", "128/0");
  ("PolyRes.label", "128/1");
  ("PolyRes.pin", "128/2");
  ("PolyRes.net", "128/3");
  ("PolyRes.boundary", "128/4");
  ("NWell.drawing", "31/0");
  ("NWell.label", "31/1");
  ("NWell.pin", "31/2");
  ("NWell.net", "31/3");
  ("NWell.boundary", "31/4");
  ("nBuLay.drawing", "32/0");
  ("nBuLay.label", "32/1");
  ("nBuLay.pin", "32/2");
  ("nBuLay.net", "32/3");
  ("nBuLay.boundary", "32/4");
  ("nBuLay.block", "32/21");
  ("PWell.block", "46/21");
  ("pSD.drawing", "14/0");
  ("nSD.drawing", "7/0");
  ("nSD.block", "7/21");
  ("SalBlock.drawing", "28/0");
  ("ThickGateOx.drawing", "44/0");
  ("Cont.drawing", "6/0");
  ("Cont.net", "6/3");
  ("Cont.boundary", "6/4");
  ("Cont.OPC", "6/26");
  ("Metal1.drawing", "8/0");
  ("Metal1.label", "8/1");
  ("Metal1.pin", "8/2");
  ("Metal1.net", "8/3");
  ("Metal1.boundary", "8/4");
  ("Metal1.mask", "8/20");
  ("Metal1.filler", "8/22");
  ("Metal1.nofill", "8/23");
  ("Metal1.slit", "8/24");
  ("Metal1.text", "8/25");
  ("Metal1.OPC", "8/26");
  ("Metal1.noqrc", "8/28");
  ("Metal1.res", "8/29");
  ("Metal1.iprobe", "8/33");
  ("Metal1.diffprb", "8/34");
  ("Via1.drawing", "19/0");
  ("Via1.net", "19/3");
  ("Via1.boundary", "19/4");
  ("Metal2.drawing", "10/0");
  ("Metal2.label", "10/1");
  ("Metal2.pin", "10/2");
  ("Metal2.net", "10/3");
  ("Metal2.boundary", "10/4");
  ("Metal2.mask", "10/20");
  ("Metal2.filler", "10/22");
  ("Metal2.nofill", "10/23");
  ("Metal2.slit", "10/24");
  ("Metal2.text", "10/25");
  ("Metal2.OPC", "10/26");
  ("Metal2.noqrc", "10/28");
  ("Metal2.res", "10/29");
  ("Metal2.iprobe", "10/33");
  ("Metal2.diffprb", "10/34");
  ("Via2.drawing", "29/0");
  ("Via2.net", "29/3");
  ("Via2.boundary", "29/4");
  ("Metal3.drawing", "30/0");
  ("Metal3.label", "30/1");
  ("Metal3.pin", "30/2");
  ("Metal3.net", "30/3");
  ("Metal3.boundary", "30/4");
  ("Metal3.mask", "30/20");
  ("Metal3.filler", "30/22");
  ("Metal3.nofill", "30/23");
  ("Metal3.slit", "30/24");
  ("Metal3.text", "30/25");
  ("Metal3.OPC", "30/26");
  ("Metal3.noqrc", "30/28");
  ("Metal3.res", "30/29");
  ("Metal3.iprobe", "30/33");
  ("Metal3.diffprb", "30/34");
  ("MIM.drawing", "36/0");
  ("MIM.net", "36/3");
  ("MIM.boundary", "36/4");
  ("Vmim.drawing", "129/0");
  ("Via3.drawing", "49/0");
  ("Via3.net", "49/3");
  ("Via3.boundary", "49/4");
  ("Metal4.drawing", "50/0");
  ("Metal4.label", "50/1");
  ("Metal4.pin", "50/2");
  ("Metal4.net", "50/3");
  ("Metal4.boundary", "50/4");
  ("Metal4.mask", "50/20");
  ("Metal4.filler", "50/22");
  ("Metal4.nofill", "50/23");
  ("Metal4.slit", "50/24");
  ("Metal4.text", "50/25");
  ("Metal4.OPC", "50/26");
  ("Metal4.noqrc", "50/28");
  ("Metal4.res", "50/29");
  ("Metal4.iprobe", "50/33");
  ("Metal4.diffprb", "50/34");
  ("Via4.drawing", "66/0");
  ("Via4.net", "66/3");
  ("Via4.boundary", "66/4");
  ("Metal5.drawing", "67/0");
  ("Metal5.label", "67/1");
  ("Metal5.pin", "67/2");
  ("Metal5.net", "67/3");
  ("Metal5.boundary", "67/4");
  ("Metal5.mask", "67/20");
  ("Metal5.filler", "67/22");
  ("Metal5.nofill", "67/23");
  ("Metal5.slit", "67/24");
  ("Metal5.text", "67/25");
  ("Metal5.OPC", "67/26");
  ("Metal5.noqrc", "67/28");
  ("Metal5.res", "67/29");
  ("Metal5.iprobe", "67/33");
  ("Metal5.diffprb", "67/34");
  ("TopVia1.drawing", "125/0");
  ("TopVia1.net", "125/3");
  ("TopVia1.boundary", "125/4");
  ("TopMetal1.drawing", "126/0");
  ("TopMetal1.label", "126/1");
  ("TopMetal1.pin", "126/2");
  ("TopMetal1.net", "126/3");
  ("TopMetal1.boundary", "126/4");
  ("TopMetal1.mask", "126/20");
  ("TopMetal1.filler", "126/22");
  ("TopMetal1.nofill", "126/23");
  ("TopMetal1.slit", "126/24");
  ("TopMetal1.text", "126/25");
  ("TopMetal1.noqrc", "126/28");
  ("TopMetal1.res", "126/29");
  ("TopMetal1.iprobe", "126/33");
  ("TopMetal1.diffprb", "126/34");
  ("TopVia2.drawing", "133/0");
  ("TopVia2.net", "133/3");
  ("TopVia2.boundary", "133/4");
  ("TopMetal2.drawing", "134/0");
  ("TopMetal2.label", "134/1");
  ("TopMetal2.pin", "134/2");
  ("TopMetal2.net", "134/3");
  ("TopMetal2.boundary", "134/4");
  ("TopMetal2.mask", "134/20");
  ("TopMetal2.filler", "134/22");
  ("TopMetal2.nofill", "134/23");
  ("TopMetal2.slit", "134/24");
  ("TopMetal2.text", "134/25");
  ("TopMetal2.noqrc", "134/28");
  ("TopMetal2.res", "134/29");
  ("TopMetal2.iprobe", "134/33");
  ("TopMetal2.diffprb", "134/34");
  ("Passiv.drawing", "9/0");
  ("Passiv.label", "9/1");
  ("Passiv.pin", "9/2");
  ("Passiv.net", "9/3");
  ("Passiv.boundary", "9/4");
  ("Passiv.pillar", "9/35");
  ("Passiv.sbump", "9/36");
  ("Passiv.pdl", "9/40");
  ("NoMetFiller.drawing", "160/0");
  ("ThinFilmRes.drawing", "146/0");
  ("IND.drawing", "27/0");
  ("IND.pin", "27/2");
  ("IND.boundary", "27/4");
  ("IND.text", "27/25");
  ("EdgeSeal.drawing", "39/0");
  ("EdgeSeal.boundary", "39/4");
  ("dfpad.drawing", "41/0");
  ("dfpad.pillar", "41/35");
  ("dfpad.sbump", "41/36");
  ("TEXT.drawing", "63/0");
  ("Recog.drawing", "99/0");
  ("Recog.pin", "99/2");
  ("Recog.esd", "99/30");
  ("Recog.diode", "99/31");
  ("Recog.tsv", "99/32");
  ("Recog.iprobe", "99/33");
  ("Recog.diffprb", "99/34");
  ("Recog.pillar", "99/35");
  ("Recog.sbump", "99/36");
  ("Recog.otp", "99/37");
  ("Recog.pdiode", "99/38");
  ("Recog.mom", "99/39");
  ("Recog.pcm", "99/100");
  ("DigiBnd.drawing", "16/0");
  ("DigiBnd.drawing0", "16/10");
  ("RES.drawing", "24/0");
  ("RES.label", "24/1");
  ("SRAM.drawing", "25/0");
  ("SRAM.label", "25/1");
  ("SRAM.boundary", "25/4");
  ("TRANS.drawing", "26/0");
  ("DigiSub.drawing", "60/0");
  ("HeatTrans.drawing", "51/0");
  ("HeatRes.drawing", "52/0");
  ("NoRCX.drawing", "148/0");
  ("NoRCX.m2m3", "148/41");
  ("NoRCX.m2m4", "148/42");
  ("NoRCX.m2m5", "148/43");
  ("NoRCX.m2tm1", "148/44");
  ("NoRCX.m2tm2", "148/45");
  ("NoRCX.m3m4", "148/46");
  ("NoRCX.m3m5", "148/47");
  ("NoRCX.m3tm1", "148/48");
  ("NoRCX.m3tm2", "148/49");
  ("NoRCX.m4m5", "148/50");
  ("NoRCX.m4tm1", "148/51");
  ("NoRCX.m4tm2", "148/52");
  ("NoRCX.m5tm1", "148/53");
  ("NoRCX.m5tm2", "148/54");
  ("NoRCX.tm1tm2", "148/55");
  ("NoRCX.m1sub", "148/123");
  ("NoRCX.m2sub", "148/124");
  ("NoRCX.m3sub", "148/125");
  ("NoRCX.m4sub", "148/126");
  ("NoRCX.m5sub", "148/127");
  ("NoRCX.tm1sub", "148/300");
  ("NoRCX.tm2sub", "148/301");
  ("BiWind.drawing", "3/0");
  ("BiWind.OPC", "3/26");
  ("BasPoly.drawing", "13/0");
  ("BasPoly.label", "13/1");
  ("BasPoly.pin", "13/2");
  ("BasPoly.net", "13/3");
  ("BasPoly.boundary", "13/4");
  ("EmWind.drawing", "33/0");
  ("EmWind.OPC", "33/26");
  ("DeepCo.drawing", "35/0");
  ("EmPoly.drawing", "55/0");
  ("Varicap.drawing", "70/0");
  ("EmWind3.drawing", "90/0");
  ("EmWiHV3.drawing", "91/0");
  ("ColOpen.drawing", "101/0");
  ("ColWind.drawing", "139/0");
  ("EmWiHV.drawing", "156/0");
  ("DeepVia.drawing", "152/0");
  ("LBE.drawing", "157/0");
  ("BackMetal1.drawing", "20/0");
  ("BackMetal1.label", "20/1");
  ("BackMetal1.pin", "20/2");
  ("BackMetal1.net", "20/3");
  ("BackMetal1.boundary", "20/4");
  ("BackMetal1.mask", "20/20");
  ("BackMetal1.filler", "20/22");
  ("BackMetal1.nofill", "20/23");
  ("BackMetal1.slit", "20/24");
  ("BackMetal1.text", "20/25");
  ("BackMetal1.OPC", "20/26");
  ("BackMetal1.noqrc", "20/28");
  ("BackMetal1.res", "20/29");
  ("BackMetal1.iprobe", "20/33");
  ("BackMetal1.diffprb", "20/34");
  ("BackPassiv.drawing", "23/0");
  ("IntBondVia.drawing", "72/0");
  ("IntBondMet.drawing", "73/0");
  ("DevBondVia.drawing", "74/0");
  ("DevBondMet.drawing", "75/0");
  ("DevTrench.drawing", "76/0");
  ("Redist.drawing", "77/0");
  ("FBE.drawing", "54/0");
  ("AntVia1.drawing", "83/0");
  ("AntMetal2.drawing", "84/0");
  ("AntMetal1.drawing", "132/0");
  ("FLM.drawing", "142/0");
  ("SNSRing.drawing", "135/0");
  ("Sensor.drawing", "136/0");
  ("SNSArms.drawing", "137/0");
  ("SNSCMOSVia.drawing", "138/0");
  ("SNSBotVia.drawing", "149/0");
  ("SNSTopVia.drawing", "151/0");
  ("NLDB.drawing", "15/0");
  ("PLDB.drawing", "45/0");
  ("RedBuLay.drawing", "92/0");
  ("NLDD.drawing", "112/0");
  ("PLDD.drawing", "113/0");
  ("NExt.drawing", "114/0");
  ("PExt.drawing", "115/0");
  ("INLDPWL.drawing", "127/0");
  ("nBuLayCut.drawing", "131/0");
  ("GraphBot.drawing", "78/0");
  ("GraphTop.drawing", "79/0");
  ("GraphCont.drawing", "85/0");
  ("SiWG.drawing", "86/0");
  ("SiWG.filler", "86/22");
  ("SiWG.nofill", "86/23");
  ("SiGrating.drawing", "87/0");
  ("SiNGrating.drawing", "88/0");
  ("GraphPas.drawing", "89/0");
  ("GraphPad.drawing", "97/0");
  ("GraphMetal1.drawing", "109/0");
  ("GraphMetal1.filler", "109/22");
  ("GraphMetal1.nofill", "109/23");
  ("GraphMetal1.slit", "109/24");
  ("GraphMetal1.OPC", "109/26");
  ("GraphMet1L.drawing", "110/0");
  ("GraphMet1L.filler", "110/22");
  ("GraphMet1L.nofill", "110/23");
  ("GraphMet1L.slit", "110/24");
  ("GraphMet1L.OPC", "110/26");
  ("GraphGate.drawing", "118/0");
  ("SiNWG.drawing", "119/0");
  ("SiNWG.filler", "119/22");
  ("SiNWG.nofill", "119/23");
  ("PWell.drawing", "46/0");
  ("PWell.label", "46/1");
  ("PWell.pin", "46/2");
  ("PWell.net", "46/3");
  ("PWell.boundary", "46/4");
  ("IC.drawing", "48/0");
  ("NoDRC.drawing", "62/0");
  ("RadHard.drawing", "68/0");
  ("MemCap.drawing", "69/0");
  ("SMOS.drawing", "93/0");
  ("Polimide.drawing", "98/0");
  ("Polimide.label", "98/1");
  ("Polimide.pin", "98/2");
  ("Polimide.net", "98/3");
  ("EXTBlock.drawing", "111/0");
  ("NExtHV.drawing", "116/0");
  ("PExtHV.drawing", "117/0");
  ("MEMPAD.drawing", "124/0");
  ("HafniumOx.drawing", "143/0");
  ("MEMVia.drawing", "145/0");
  ("RFMEM.drawing", "147/0");
  ("FGEtch.drawing", "153/0");
  ("CtrGat.drawing", "154/0");
  ("FGImp.drawing", "155/0");
  ("AlCuStop.drawing", "159/0");
  ("prBoundary.drawing", "189/0");
  ("prBoundary.label", "189/1");
  ("prBoundary.boundary", "189/4");
  ("Exchange0.drawing", "190/0");
  ("Exchange0.label", "190/1");
  ("Exchange0.pin", "190/2");
  ("Exchange0.text", "190/25");
  ("Exchange1.drawing", "191/0");
  ("Exchange1.label", "191/1");
  ("Exchange1.pin", "191/2");
  ("Exchange1.text", "191/25");
  ("Exchange2.drawing", "192/0");
  ("Exchange2.label", "192/1");
  ("Exchange2.pin", "192/2");
  ("Exchange2.text", "192/25");
  ("Exchange3.drawing", "193/0");
  ("Exchange3.label", "193/1");
  ("Exchange3.pin", "193/2");
  ("Exchange3.text", "193/25");
  ("Exchange4.drawing", "194/0");
  ("Exchange4.label", "194/1");
  ("Exchange4.pin", "194/2");
  ("Exchange4.text", "194/25");
  ("isoNWell.drawing", "257/0")
].

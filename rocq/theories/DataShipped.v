(** The shipped data files, generated by tools/shipped.py: the text of src/runtime/ionlist.dat (lines 1-107), src/runtime/nsftable.dat
    (lines 1-400) and src/runtime/f0_WaasKirf.dat (lines 1-913), and the records that are in them. *)
From Coq Require Import List ZArith String.
Import ListNotations.
Open Scope list_scope.

(** src/runtime/ionlist.dat *)
Definition ionlist_dat : list string := [
"# List of ions compiled from bvparm2009.cif and from ions defined";
"# in the Python periodictable package.";
"#";
"# element-symbol  atomic-number  list-of-ions";
"H 1 -1 +1";
"He 2";
"Li 3 -1 +1";
"Be 4 -2 +2";
"B 5 +3";
"C 6 -4 +2 +4";
"N 7 -3 -2 +3 +5";
"O 8 -2 -1 +1 +2";
"F 9 -1 +1";
"Ne 10";
"Na 11 -1 +1";
"Mg 12 -2 +2";
"Al 13 -3 +3";
"Si 14 -4 +4";
"P 15 -3 +3 +4 +5";
"S 16 -4 -2 +2 +4 +6";
"Cl 17 -2 -1 +1 +3 +5 +7";
"Ar 18";
"K 19 -1 +1";
"Ca 20 -2 +2";
"Sc 21 -3 +3";
"Ti 22 -4 -3 -2 +2 +3 +4";
"V 23 -5 -3 -2 +1 +2 +3 +4 +5";
"Cr 24 -3 -2 +2 +3 +4 +5 +6";
"Mn 25 -4 -3 -2 +2 +3 +4 +6 +7";
"Fe 26 -3 -2 +2 +3 +4 +6";
"Co 27 -3 -2 -1 +1 +2 +3 +4";
"Ni 28 -3 -2 +2 +3 +4";
"Cu 29 -2 -1 +1 +2 +3";
"Zn 30 -2 +2";
"Ga 31 -3 +1 +3";
"Ge 32 -4 +4";
"As 33 -3 +2 +3 +5";
"Se 34 -2 -1 +2 +4 +6";
"Br 35 -1 +1 +3 +5 +7";
"Kr 36 +2";
"Rb 37 -1 +1";
"Sr 38 -2 +2";
"Y 39 +3";
"Zr 40 -4 +2 +4";
"Nb 41 -5 -3 +3 +4 +5";
"Mo 42 -6 -5 -3 +2 +3 +4 +5 +6 +7";
"Tc 43 +3 +4 +5 +6 +7";
"Ru 44 -4 -3 +2 +3 +4 +5 +6 +7";
"Rh 45 -4 -3 +3 +4 +5";
"Pd 46 -4 -2 +2 +4";
"Ag 47 -2 -1 +1 +2 +3";
"Cd 48 -2 +2";
"In 49 -3 +1 +3";
"Sn 50 -4 -2 +2 +4";
"Sb 51 -5 -3 +3 +5";
"Te 52 -2 +4 +6";
"I 53 -2 -1 +1 +3 +5 +7";
"Xe 54 +2 +4 +6 +8";
"Cs 55 -1 +1";
"Ba 56 -2 +2";
"La 57 -3 +3";
"Ce 58 -4 -3 +3 +4";
"Pr 59 -4 -3 +3";
"Nd 60 -3 +2 +3";
"Pm 61 -3 +3";
"Sm 62 -3 +2 +3";
"Eu 63 -3 -2 +2 +3";
"Gd 64 -3 +2 +3";
"Tb 65 -3 +3";
"Dy 66 -3 +2 +3";
"Ho 67 -3 +3";
"Er 68 -3 +2 +3";
"Tm 69 -3 +3";
"Yb 70 -3 -2 +2 +3";
"Lu 71 -3 +3";
"Hf 72 -4 +3 +4";
"Ta 73 -5 +4 +5";
"W 74 -6 +4 +5 +6";
"Re 75 +1 +3 +4 +5 +6 +7";
"Os 76 -4 +4 +5 +6 +8";
"Ir 77 -4 -3 +4 +5";
"Pt 78 -4 -2 +2 +3 +4";
"Au 79 -3 -1 +1 +3 +5";
"Hg 80 -2 -1 +1 +2";
"Tl 81 -3 -1 +1 +3";
"Pb 82 -4 -2 +2 +4";
"Bi 83 -5 -3 +3 +5";
"Po 84 +4";
"At 85";
"Rn 86";
"Fr 87";
"Ra 88 -2";
"Ac 89 -3 +3";
"Th 90 -4 +4";
"Pa 91 +4 +5";
"U 92 -6 -4 -3 +2 +3 +4 +5 +6";
"Np 93 -6 -4 -3 +3 +4 +5 +6 +7";
"Pu 94 -6 -4 -3 +3 +4 +5 +6 +7";
"Am 95 +3 +4 +5 +6";
"Cm 96 +3 +4";
"Bk 97 +3 +4";
"Cf 98 +3 +4";
"Es 99 +3";
"Fm 100 +3";
"Md 101 +2 +3";
"No 102 +2 +3";
"Lr 103 +3"]%string.
(** symbol, atomic number, charges; src/runtime/ionlist.dat *)
Definition shipped_ions : list (string * Z * list Z) := [
("H"%string, 1, [(-1); 1]);
("He"%string, 2, []);
("Li"%string, 3, [(-1); 1]);
("Be"%string, 4, [(-2); 2]);
("B"%string, 5, [3]);
("C"%string, 6, [(-4); 2; 4]);
("N"%string, 7, [(-3); (-2); 3; 5]);
("O"%string, 8, [(-2); (-1); 1; 2]);
("F"%string, 9, [(-1); 1]);
("Ne"%string, 10, []);
("Na"%string, 11, [(-1); 1]);
("Mg"%string, 12, [(-2); 2]);
("Al"%string, 13, [(-3); 3]);
("Si"%string, 14, [(-4); 4]);
("P"%string, 15, [(-3); 3; 4; 5]);
("S"%string, 16, [(-4); (-2); 2; 4; 6]);
("Cl"%string, 17, [(-2); (-1); 1; 3; 5; 7]);
("Ar"%string, 18, []);
("K"%string, 19, [(-1); 1]);
("Ca"%string, 20, [(-2); 2]);
("Sc"%string, 21, [(-3); 3]);
("Ti"%string, 22, [(-4); (-3); (-2); 2; 3; 4]);
("V"%string, 23, [(-5); (-3); (-2); 1; 2; 3; 4; 5]);
("Cr"%string, 24, [(-3); (-2); 2; 3; 4; 5; 6]);
("Mn"%string, 25, [(-4); (-3); (-2); 2; 3; 4; 6; 7]);
("Fe"%string, 26, [(-3); (-2); 2; 3; 4; 6]);
("Co"%string, 27, [(-3); (-2); (-1); 1; 2; 3; 4]);
("Ni"%string, 28, [(-3); (-2); 2; 3; 4]);
("Cu"%string, 29, [(-2); (-1); 1; 2; 3]);
("Zn"%string, 30, [(-2); 2]);
("Ga"%string, 31, [(-3); 1; 3]);
("Ge"%string, 32, [(-4); 4]);
("As"%string, 33, [(-3); 2; 3; 5]);
("Se"%string, 34, [(-2); (-1); 2; 4; 6]);
("Br"%string, 35, [(-1); 1; 3; 5; 7]);
("Kr"%string, 36, [2]);
("Rb"%string, 37, [(-1); 1]);
("Sr"%string, 38, [(-2); 2]);
("Y"%string, 39, [3]);
("Zr"%string, 40, [(-4); 2; 4]);
("Nb"%string, 41, [(-5); (-3); 3; 4; 5]);
("Mo"%string, 42, [(-6); (-5); (-3); 2; 3; 4; 5; 6; 7]);
("Tc"%string, 43, [3; 4; 5; 6; 7]);
("Ru"%string, 44, [(-4); (-3); 2; 3; 4; 5; 6; 7]);
("Rh"%string, 45, [(-4); (-3); 3; 4; 5]);
("Pd"%string, 46, [(-4); (-2); 2; 4]);
("Ag"%string, 47, [(-2); (-1); 1; 2; 3]);
("Cd"%string, 48, [(-2); 2]);
("In"%string, 49, [(-3); 1; 3]);
("Sn"%string, 50, [(-4); (-2); 2; 4]);
("Sb"%string, 51, [(-5); (-3); 3; 5]);
("Te"%string, 52, [(-2); 4; 6]);
("I"%string, 53, [(-2); (-1); 1; 3; 5; 7]);
("Xe"%string, 54, [2; 4; 6; 8]);
("Cs"%string, 55, [(-1); 1]);
("Ba"%string, 56, [(-2); 2]);
("La"%string, 57, [(-3); 3]);
("Ce"%string, 58, [(-4); (-3); 3; 4]);
("Pr"%string, 59, [(-4); (-3); 3]);
("Nd"%string, 60, [(-3); 2; 3]);
("Pm"%string, 61, [(-3); 3]);
("Sm"%string, 62, [(-3); 2; 3]);
("Eu"%string, 63, [(-3); (-2); 2; 3]);
("Gd"%string, 64, [(-3); 2; 3]);
("Tb"%string, 65, [(-3); 3]);
("Dy"%string, 66, [(-3); 2; 3]);
("Ho"%string, 67, [(-3); 3]);
("Er"%string, 68, [(-3); 2; 3]);
("Tm"%string, 69, [(-3); 3]);
("Yb"%string, 70, [(-3); (-2); 2; 3]);
("Lu"%string, 71, [(-3); 3]);
("Hf"%string, 72, [(-4); 3; 4]);
("Ta"%string, 73, [(-5); 4; 5]);
("W"%string, 74, [(-6); 4; 5; 6]);
("Re"%string, 75, [1; 3; 4; 5; 6; 7]);
("Os"%string, 76, [(-4); 4; 5; 6; 8]);
("Ir"%string, 77, [(-4); (-3); 4; 5]);
("Pt"%string, 78, [(-4); (-2); 2; 3; 4]);
("Au"%string, 79, [(-3); (-1); 1; 3; 5]);
("Hg"%string, 80, [(-2); (-1); 1; 2]);
("Tl"%string, 81, [(-3); (-1); 1; 3]);
("Pb"%string, 82, [(-4); (-2); 2; 4]);
("Bi"%string, 83, [(-5); (-3); 3; 5]);
("Po"%string, 84, [4]);
("At"%string, 85, []);
("Rn"%string, 86, []);
("Fr"%string, 87, []);
("Ra"%string, 88, [(-2)]);
("Ac"%string, 89, [(-3); 3]);
("Th"%string, 90, [(-4); 4]);
("Pa"%string, 91, [4; 5]);
("U"%string, 92, [(-6); (-4); (-3); 2; 3; 4; 5; 6]);
("Np"%string, 93, [(-6); (-4); (-3); 3; 4; 5; 6; 7]);
("Pu"%string, 94, [(-6); (-4); (-3); 3; 4; 5; 6; 7]);
("Am"%string, 95, [3; 4; 5; 6]);
("Cm"%string, 96, [3; 4]);
("Bk"%string, 97, [3; 4]);
("Cf"%string, 98, [3; 4]);
("Es"%string, 99, [3]);
("Fm"%string, 100, [3]);
("Md"%string, 101, [2; 3]);
("No"%string, 102, [2; 3]);
("Lr"%string, 103, [3])]%Z.
(** src/runtime/nsftable.dat *)
Definition nsftable_dat : list string := [
"# ----------------------------------------------------------------------------";
"# Neutron Scattering Factors extracted from Python package periodictable";
"# by Paul Kienzle, https://github.com/pkienzle/periodictable.git v1.3.9";
"# ----------------------------------------------------------------------------";
"#";
"# We are including the complete original table here in case somebody in";
"# future wants to extract uncertainties or other information.";
"#";
"# Z-Symbol-A";
"#   This is the atomic number, the symbol and the isotope.";
"#   If Z-Symbol only, the line represents an element with scattering determined";
"#   by the natural abundance of the isotopes in laboratory samples.  If there";
"#   is only one isotope, then there is no corresponding element definition.";
"# concentration/half-life";
"#   This is the natural abundance of the isotope expressed as a percentage, or";
"#   it is the half-life in years (number Y) or seconds (number S).";
"# spin I";
"#   For isotopes, the nuclear spin.";
"# b_c, bp, bm";
"#   Bound coherent scattering length in fm";
"#   b+/b- if present are spin dependent scattering for I+1/2 and I-1/2";
"#   respectively";
"# c";
"#   'E' if there is a strong energy dependency.";
"#   '+/-' if separate b+/b- values are available [doesn't seem true -PAK]";
"# coherent, incoherent, total";
"#   The coherent and incoherent scattering cross-sections in barns.";
"# absorption";
"#   The thermal absorption cross section in barns at 1.798 Angstroms/25.30 meV.";
"#";
"# Numbers in parenthesis represents uncertainty.";
"# Numbers followed by '*' are estimated.";
"# Numbers may be given as limit, e.g., <1.0e-6";
"#";
"# Formatting corrections by Paul Kienzle";
"#";
"0-n-1,618 S,1/2,-37.0(6),0,-37.0(6),,43.01(2),,43.01(2),0";
"1-H,,,-3.7409(11),,,,1.7568(10),80.26(6),82.02(6),0.3326(7)";
"1-H-1,99.985,1/2,-3.7423(12),10.817(5),-47.420(14),+/-,1.7583(10),80.27(6),82.03(6),0.3326(7)";
"1-H-2,0.0149,1,6.674(6),9.53(3),0.975(60),,5.592(7),2.05(3),7.64(3),0.000519(7)";
"1-H-3,12.26 Y,1/2,4.792(27),4.18(15),6.56(37),,2.89(3),0.14(4),3.03(5),<6.0E-6";
"2-He,,,3.26(3),,,,1.34(2),0,1.34(2),0.00747(1)";
"2-He-3,0.013,1/2,5.74(7),4.7(5),8.8(1.4),E,4.42(10),1.6(4),6.0(4),5333.0(7.0)";
"2-He-4,99.987,0,3.26(3),,,,1.34(2),0,1.34(2),0";
"3-Li,,,-1.90(3),,,,0.454(10),0.92(3),1.37(3),70.5(3)";
"3-Li-6,7.5,1,2.0(1),0.67(14),4.67(17),+/-,0.51(5),0.46(5),0.97(7),940.0(4.0)";
"3-Li-7,92.5,3/2,-2.22(2),-4.15(6),1.00(8),+/-,0.619(11),0.78(3),1.40(3),0.0454(3)";
"4-Be-9,100,3/2,7.79(1),,,,7.63(2),0.0018(9),7.63(2),0.0076(8)";
"5-B,,,5.30(4),,,,3.54(5),1.70(12),5.24(11),767.0(8.0)";
"5-B-10,19.4,3,-0.2(4),-4.2(4),5.2(4),,0.144(6),3.0(4),3.1(4),3835.0(9.0)";
"5-B-11,80.2,3/2,6.65(4),5.6(3),8.3(3),,5.56(7),0.21(7),5.77(10),0.0055(33)";
"6-C,,,6.6484(13),,,,5.551(2),0.001(4),5.551(3),0.00350(7)";
"6-C-12,98.89,0,6.6535(14),,,,5.559(3),0,5.559(3),0.00353(7)";
"6-C-13,1.11,1/2,6.19(9),5.6(5),6.2(5),+/-,4.81(14),0.034(11),4.84(14),0.00137(4)";
"7-N,,,9.36(2),,,,11.01(5),0.50(12),11.51(11),1.90(3)";
"7-N-14,99.635,1,9.37(2),10.7(2),6.2(3),,11.03(5),0.50(12),11.53(11),1.91(3)";
"7-N-15,0.365,1/2,6.44(3),6.77(10),6.21(10),,5.21(5),0.00005(10),5.21(5),0.000024(8)";
"8-O,,,5.805(4),,,,4.232(6),0.000(8),4.232(6),0.00019(2)";
"8-O-16,99.75,0,5.805(5),,,,4.232(6),0,4.232(6),0.00010(2)";
"8-O-17,0.039,5/2,5.6(5),5.52(20),5.17(20),,4.20(22),0.004(3),4.20(22),0.236(10)";
"8-O-18,0.208,0,5.84(7),,,,4.29(10),0,4.29(10),0.00016(1)";
"9-F-19,100,1/2,5.654(12),5.632(10),5.767(10),+/-,4.017(14),0.0008(2),4.018(14),0.0096(5)";
"10-Ne,,,4.566(6),,,,2.620(7),0.008(9),2.628(6),0.039(4)";
"10-Ne-20,90.5,0,4.631(6),,,,2.695(7),0,2.695(7),0.036(4)";
"10-Ne-21,0.27,3/2,6.66(19),,,,5.6(3),0.05(2),5.7(3),0.67(11)";
"10-Ne-22,9.2,0,3.87(1),,,,1.88(1),0,1.88(1),0.046(6)";
"11-Na-23,100,3/2,3.63(2),6.42(4),-1.00(6),+/-,1.66(2),1.62(3),3.28(4),0.530(5)";
"12-Mg,,,5.375(4),,,,3.631(5),0.08(6),3.71(4),0.063(3)";
"12-Mg-24,78.99,0,5.49(18),,,,4.03(4),0,4.03(4),0.050(5)";
"12-Mg-25,10,5/2,3.62(14),4.73(30),1.76(20),+/-,1.65(13),0.28(4),1.93(14),0.19(3)";
"12-Mg-26,11,0,4.89(15),,,,3.00(18),0,3.00(18),0.0382(8)";
"13-Al-27,100,5/2,3.449(5),3.67(2),3.15(2),,1.495(4),0.0082(6),1.503(4),0.231(3)";
"14-Si,,,4.15071(22),,,,2.1633(10),0.004(8),2.167(8),0.171(3)";
"14-Si-28,92.2,0,4.106(6),,,,2.120(6),0,2.120(6),0.177(3)";
"14-Si-29,4.7,1/2,4.7(1),4.50(15),4.7(4),+/-,2.78(12),0.001(2),2.78(12),0.101(14)";
"14-Si-30,3.1,0,4.58(8),,,,2.64(9),0,2.64(9),0.107(2)";
"15-P-31,100,1/2,5.13(1),,,+/-,3.307(13),0.005(10),3.312(16),0.172(6)";
"16-S,,,2.847(1),,,,1.0186(7),0.007(5),1.026(5),0.53(1)";
"16-S-32,95,0,2.804(2),,,,0.9880(14),0,0.9880(14),0.54(4)";
"16-S-33,0.74,3/2,4.74(19),,,+/-,2.8(2),0.3(6),3.1(6),0.54(4)";
"16-S-34,4.2,0,3.48(3),,,,1.52(3),0,1.52(3),0.227(5)";
"16-S-36,0.02,0,3.0(1.0)*,,,,1.1(8),0,1.1(8),0.15(3)";
"17-Cl,,,9.5792(8),,,,11.528(2),5.3(5),16.8(5),33.5(3)";
"17-Cl-35,75.77,3/2,11.70(9),16.3(2),4.0(3),+/-,17.06(6),4.7(6),21.8(6),44.1(4)";
"17-Cl-37,24.23,3/2,3.08(6),3.10(7),3.05(7),+/-,1.19(5),0.001(3),1.19(5),0.433(6)";
"18-Ar,,,1.909(6),,,,0.458(3),0.225(5),0.683(4),0.675(9)";
"18-Ar-36,0.34,0,24.9(7),,,,77.9(4),0,77.9(4),5.2(5)";
"18-Ar-38,0.07,0,3.5(3.5),,,,1.5(3.1),0,1.5(3.1),0.8(5)";
"18-Ar-40,99.59,0,1.7,,,,0.421(3),0,0.421(3),0.660(9)";
"19-K,,,3.67(2),,,,1.69(2),0.27(11),1.96(11),2.1(1)";
"19-K-39,93.3,3/2,3.79(2),5.15,1.51,+/-,1.76(2),0.25(11),2.01(11),2.1(1)";
"19-K-40,0.012,4,3.1(1.0)*,,,,1.1(6),0.5(5)*,1.6(9),35.0(8.0)";
"19-K-41,6.7,3/2,2.69(8),,,,0.91(5),0.3(6),1.2(6),1.46(3)";
"20-Ca,,,4.70(2),,,,2.78(2),0.05(3),2.83(2),0.43(2)";
"20-Ca-40,96.94,0,4.78(5),,,,2.90(2),0,2.90(2),0.41(2)";
"20-Ca-42,0.64,0,3.36(10),,,,1.42(8),0,1.42(8),0.68(7)";
"20-Ca-43,0.13,7/2,-1.56(9),,,,0.31(4),0.5(5),0.8(5),6.2(6)";
"20-Ca-44,2.13,0,1.42(6),,,,0.25(2),0,0.25(2),0.88(5)";
"20-Ca-46,0.003,0,3.55(21),,,,1.6(2),0,1.6(2),0.74(7)";
"20-Ca-48,0.18,0,0.39(9),,,,0.019(9),0,0.019(9),1.09(14)";
"21-Sc-45,100,7/2,12.1(1),6.91(22),18.99(28),+/-,19.0(3),4.5(3),23.5(6),27.5(2)";
"22-Ti,,,-3.370(13),,,,1.485(2),2.87(3),4.35(3),6.09(13)";
"22-Ti-46,8,0,4.72(5),,,,3.05(7),0,3.05(7),0.59(18)";
"22-Ti-47,7.5,5/2,3.53(7),0.46(23),7.64(13),,1.66(11),1.5(2),3.2(2),1.7(2)";
"22-Ti-48,73.7,0,-5.86(2),,,,4.65(3),0,4.65(3),7.84(25)";
"22-Ti-49,5.5,7/2,0.98(5),2.6(3),-1.2(4),,0.14(1),3.3(3),3.4(3),2.2(3)";
"22-Ti-50,5.3,0,5.88(10),,,,4.80(12),0,4.80(12),0.179(3)";
"23-V,,,-0.443(14),,,,0.01838(12),5.08(6),5.10(6),5.08(4)";
"23-V-50,0.25,6,7.6(6)*,,,,7.3(1.1),0.5(5)*,7.8(1.0),60.0(40.0)";
"23-V-51,99.75,7/2,-0.402(2),4.93(25),-7.58(28),+/-,0.0203(2),5.07(6),5.09(6),4.9(1)";
"24-Cr,,,3.635(7),,,,1.660(6),1.83(2),3.49(2),3.05(6)";
"24-Cr-50,4.35,0,-4.50(5),,,,2.54(6),0,2.54(6),15.8(2)";
"24-Cr-52,83.8,0,4.914(15),,,,3.042(12),0,3.042(12),0.76(6)";
"24-Cr-53,9.59,3/2,-4.20(3),1.16(10),-13.0(2),,2.22(3),5.93(17),8.15(17),18.1(1.5)";
"24-Cr-54,2.36,0,4.55(10),,,,2.60(11),0,2.60(11),0.36(4)";
"25-Mn-55,100,5/2,-3.750(18),-4.93(46),-1.46(33),,1.75(2),0.40(2),2.15(3),13.3(2)";
"26-Fe,,,9.45(2),,,,11.22(5),0.40(11),11.62(10),2.56(3)";
"26-Fe-54,5.8,0,4.2(1),,,,2.2(1),0,2.2(1),2.25(18)";
"26-Fe-56,91.7,0,10.1(2),,,,12.42(7),0,12.42(7),2.59(14)";
"26-Fe-57,2.19,1/2,2.3(1),,,,0.66(6),0.3(3)*,1.0(3),2.48(30)";
"26-Fe-58,0.28,0,15(7),,,,28.0(26.0),0,28.0(26.0),1.28(5)";
"27-Co-59,100,7/2,2.49(2),-9.21(10),3.58(10),+/-,0.779(13),4.8(3),5.6(3),37.18(6)";
"28-Ni,,,10.3(1),,,,13.3(3),5.2(4),18.5(3),4.49(16)";
"28-Ni-58,67.88,0,14.4(1),,,,26.1(4),0,26.1(4),4.6(3)";
"28-Ni-60,26.23,0,2.8(1),,,,0.99(7),0,0.99(7),2.9(2)";
"28-Ni-61,1.19,3/2,7.60(6),,,,7.26(11),1.9(3),9.2(3),2.5(8)";
"28-Ni-62,3.66,0,-8.7(2),,,,9.5(4),0,9.5(4),14.5(3)";
"28-Ni-64,1.08,0,-0.37(7),,,,0.017(7),0,0.017(7),1.52(3)";
"29-Cu,,,7.718(4),,,,7.485(8),0.55(3),8.03(3),3.78(2)";
"29-Cu-63,69.1,3/2,6.477(13),,,+/-,5.2(2),0.006(1),5.2(2),4.50(2)";
"29-Cu-65,30.9,3/2,10.204(20),,,+/-,14.1(5),0.40(4),14.5(5),2.17(3)";
"30-Zn,,,5.680(5),,,,4.054(7),0.077(7),4.131(10),1.11(2)";
"30-Zn-64,48.9,0,5.23(4),,,,3.42(5),0,3.42(5),0.93(9)";
"30-Zn-66,27.8,0,5.98(5),,,,4.48(8),0,4.48(8),0.62(6)";
"30-Zn-67,4.1,5/2,7.58(8),5.8(5),10.1(7),+/-,7.18(15),0.28(3),7.46(15),6.8(8)";
"30-Zn-68,18.6,0,6.04(3),,,,4.57(5),0,4.57(5),1.1(1)";
"30-Zn-70,0.62,0,6.9(1.0)*,,,,4.5(1.5),0,4.5(1.5),0.092(5)";
"31-Ga,,,7.288(2),,,,6.675(4),0.16(3),6.83(3),2.75(3)";
"31-Ga-69,60,3/2,8.043(16),6.3(2),10.5(4),+/-,7.80(4),0.091(11),7.89(4),2.18(5)";
"31-Ga-71,40,3/2,6.170(11),5.5(6),7.8(1),+/-,5.15(5),0.084(8),5.23(5),3.61(10)";
"32-Ge,,,8.185(20),,,,8.42(4),0.18(7),8.60(6),2.20(4)";
"32-Ge-70,20.7,0,10.0(1),,,,12.6(3),0,12.6(3),3.0(2)";
"32-Ge-72,27.5,0,8.51(10),,,,9.1(2),0,9.1(2),0.8(2)";
"32-Ge-73,7.7,9/2,5.02(4),8.1(4),1.2(4),,3.17(5),1.5(3),4.7(3),15.1(4)";
"32-Ge-74,36.4,0,7.58(10),,,,7.2(2),0,7.2(2),0.4(2)";
"32-Ge-76,7.7,0,8.2(1.5),,,,8.0(3.0),0,8.0(3.0),0.16(2)";
"33-As-75,100,3/2,6.58(1),6.04(5),7.47(8),+/-,5.44(2),0.060(10),5.50(2),4.5(1)";
"34-Se,,,7.970(9),,,,7.98(2),0.32(6),8.30(6),11.7(2)";
"34-Se-74,0.9,0,0.8(3.0),,,,0.1(6),0,0.1(6),51.8(1.2)";
"34-Se-76,9,0,12.2(1),,,,18.7(3),0,18.7(3),85.0(7.0)";
"34-Se-77,7.5,0,8.25(8),,,,8.6(2),0.05(25),8.65(16),42.0(4.0)";
"34-Se-78,23.5,0,8.24(9),,,,8.5(2),0,8.5(2),0.43(2)";
"34-Se-80,50,0,7.48(3),,,,7.03(6),0,7.03(6),0.61(5)";
"34-Se-82,8.84,0,6.34(8),,,,5.05(13),0,5.05(13),0.044(3)";
"35-Br,,,6.79(2),,,,5.80(3),0.10(9),5.90(9),6.9(2)";
"35-Br-79,50.49,3/2,6.79(7),,,+/-,5.81(2),0.15(6),5.96(13),11.0(7)";
"35-Br-81,49.31,3/2,6.78(7),,,+/-,5.79(12),0.05(2),5.84(12),2.7(2)";
"36-Kr,,,7.81(2),,,,7.67(4),0.01(14),7.68(13),25.0(1.0)";
"36-Kr-78,0.35,0,,,,,,0,,6.4(9)";
"36-Kr-80,2.5,0,,,,,,0,,11.8(5)";
"36-Kr-82,11.6,0,,,,,,0,,29.0(20.0)";
"36-Kr-83,11.5,9/2,,,,,,,,185.0(30.0)";
"36-Kr-84,57,0,,,,,,0,6.6,0.113(15)";
"36-Kr-86,17.3,0,8.07(26),,,,8.2(4),0,8.2(4),0.003(2)";
"37-Rb,,,7.08(2),,,,6.32(4),0.5(4),6.8(4),0.38(1)";
"37-Rb-85,72.17,5/2,7.07(10),,,,6.2(2),0.5(5)*,6.7(5),0.48(1)";
"37-Rb-87,27.83,3/2,7.27(12),,,,6.6(2),0.5(5)*,7.1(5),0.12(3)";
"38-Sr,,,7.02(2),,,,6.19(4),0.06(11),6.25(10),1.28(6)";
"38-Sr-84,0.56,0,5.0(2.0),,,,6.0(2.0),0,6.0(2.0),0.87(7)";
"38-Sr-86,9.9,0,5.68(5),,,,4.04(7),0,4.04(7),1.04(7)";
"38-Sr-87,7,9/2,7.41(7),,,,6.88(13),0.5(5)*,7.4(5),16.0(3.0)";
"38-Sr-88,82.6,0,7.16(6),,,,6.42(11),0,6.42(11),0.058(4)";
"39-Y-89,100,1/2,7.75(2),8.4(2),5.8(5),+/-,7.55(4),0.15(8),7.70(9),1.28(2)";
"40-Zr,,,7.16(3),,,,6.44(5),0.02(15),6.46(14),0.185(3)";
"40-Zr-90,51.48,0,6.5(1),,,,5.1(2),0,5.1(2),0.011(59";
"40-Zr-91,11.23,5/2,8.8(1),7.9(2),10.1(2),+/-,9.5(2),0.15(4),9.7(2),1.17(10)";
"40-Zr-92,17.11,0,7.5(2),,,,6.9(4),0,6.9(4),0.22(6)";
"40-Zr-94,17.4,0,8.3(2),,,,8.4(4),0,8.4(4),0.0499(24)";
"40-Zr-96,2.8,0,5.5(1),,,,3.8(1),0,3.8(1),0.0229(10)";
"41-Nb-93,100,9/2,7.054(3),7.06(4),7.35(4),+/-,6.253(5),0.0024(3),6.255(5),1.15(6)";
"42-Mo,,,6.715(20),,,,5.67(3),0.04(5),5.71(4),2.48(4)";
"42-Mo-92,15.48,0,6.93(8),,,,6.00(14),0,6.00(14),0.019(2)";
"42-Mo-94,9.1,0,6.82(7),,,,5.81(12),0,5.81(12),0.015(2)";
"42-Mo-95,15.72,5/2,6.93(7),,,,6.00(10),0.5(5)*,6.5(5),13.1(3)";
"42-Mo-96,16.53,0,6.22(6),,,,4.83(9),0,4.83(9),0.5(2)";
"42-Mo-97,9.5,5/2,7.26(8),,,,6.59(15),0.5(5)*,7.1(5),2.5(2)";
"42-Mo-98,23.78,0,6.60(7),,,,5.44(12),0,5.44(12),0.127(6)";
"42-Mo-100,9.6,0,6.75(7),,,,5.69(12),0,5.69(12),0.4(2)";
"43-Tc-99,210000 Y,9/2,6.8(3),,,,5.8(5),0.5(5)*,6.3(7),20.0(1.0)";
"44-Ru,,,7.02(2),,,,6.21(5),0.4(1),6.6(1),2.56(13)";
"44-Ru-96,5.8,0,,,,,,0,,0.28(2)";
"44-Ru-98,1.9,0,,,,,,0,,<8.0";
"44-Ru-99,12.7,5/2,,,,,,,,6.9(1.0)";
"44-Ru-100,12.6,0,,,,,,0,,4.8(6)";
"44-Ru-101,17.07,5/2,,,,,,,,3.3(9)";
"44-Ru-102,31.61,0,,,,,,0,,1.17(7)";
"44-Ru-104,18.58,0,,,,,,0,,0.31(2)";
"45-Rh-103,100,1/2,5.90(4),8.15(6),6.74(6),,4.34(6),0.3(3)*,4.6(3),144.8(7)";
"46-Pd,,,5.91(6),,,,4.39(9),0.093(9),4.48(9),6.9(4)";
"46-Pd-102,1,0,7.7(7)*,,,,7.5(1.4),0,7.5(1.4),3.4(3)";
"46-Pd-104,11,0,7.7(7)*,,,,7.5(1.4),0,7.5(1.4),0.6(3)";
"46-Pd-105,22.33,5/2,5.5(3),,,+/-,3.8(4),0.8(1.0),4.6(1.1),20.0(3.0)";
"46-Pd-106,27.33,0,6.4(4),,,,5.1(6),0,5.1(6),0.304(29)";
"46-Pd-108,26.71,0,4.1(3),,,,2.1(3),0,2.1(3),8.5(5)";
"46-Pd-110,11.8,0,7.7(7)*,,,,7.5(1.4),0,7.5(1.4),0.226(31)";
"47-Ag,,,5.922(7),,,,4.407(10),0.58(3),4.99(3),63.3(4)";
"47-Ag-107,51.8,1/2,7.555(11),8.14(9),5.8(3),+/-,7.17(2),0.13(3),7.30(4),37.6(1.2)";
"47-Ag-109,48.2,1/2,4.165(11),3.24(8),6.9(2),+/-,2.18(1),0.32(5),2.50(5),91.0(1.0)";
"48-Cd,,,4.83(5),,,E,3.04(6),3.46(13),6.50(12),2520.0(50.0)";
"48-Cd-106,1.2,0,5.0(2.0)*,,,,3.1(2.5),0,3.1(2.5),1.0(2.0)";
"48-Cd-108,0.9,0,5.31(24),,,,3.7(1),0,3.7(1),1.1(3)";
"48-Cd-110,12.39,0,5.78(8),,,,4.4(1),0,4.4(1),11.0(1.0)";
"48-Cd-111,12.75,1/2,6.47(8),,,,5.3(2),0.3(3)*,5.6(4),24.0(5.0)";
"48-Cd-112,24.07,0,6.34(6),,,,5.1(2),0,5.1(2),2.2(5)";
"48-Cd-113,12.36,1/2,-8.0(1),,,E,12.1(4),0.3(3)*,12.4(5),20600.0(400.0)";
"48-Cd-114,28.86,0,7.48(5),,,,7.1(2),0,7.1(2),0.34(2)";
"48-Cd-116,7.58,0,6.26(9),,,,5.0(2),0,5.0(2),0.075(13)";
"49-In,,,4.065(20),,,,2.08(2),0.54(11),2.62(11),193.8(1.5)";
"49-In-113,4.28,9/2,5.39(6),,,,3.65(8),0.000037(5),3.65(8),12.0(1.1)";
"49-In-115,95.72,9/2,4.00(3),2.1(1),6.4(4),,2.02(2),0.55(11),2.57(11),202.0(2.0)";
"50-Sn,,,6.225(2),,,,4.871(3),0.022(5),4.892(6),0.626(9)";
"50-Sn-112,1,0,6.0(1.0)*,,,,4.5(1.5),0,4.5(1.5),1.00(11)";
"50-Sn-114,0.66,0,6.0(3),,,,4.8(5),0,4.8(5),0.114(30)";
"50-Sn-115,0.35,1/2,6.0(1.0)*,,,,4.5(1.5),0.3(3)*,4.8(1.5),30.0(7.0)";
"50-Sn-116,14.3,0,6.10(1),,,,4.42(7),0,4.42(7),0.14(3)";
"50-Sn-117,7.61,1/2,6.59(8),0.22(10),-0.23(10),,5.28(8),0.3(3)*,5.6(3),2.3(5)";
"50-Sn-118,24.03,0,6.23(4),,,,4.63(8),0,4.63(8),0.22(5)";
"50-Sn-119,8.58,1/2,6.28(3),0.14(10),0.0(1),,4.71(8),0.3(3)*,5.0(3),2.2(5)";
"50-Sn-120,32.86,0,6.67(4),,,,5.29(8),0,5.29(8),0.14(3)";
"50-Sn-122,4.72,0,5.93(3),,,,4.14(7),0,4.14(7),0.18(2)";
"50-Sn-124,5.94,0,6.15(3),,,,4.48(8),0,4.48(8),0.133(5)";
"51-Sb,,,5.57(3),,,,3.90(4),0.00(7),3.90(6),4.91(5)";
"51-Sb-121,57.25,5/2,5.71(6),5.7(2),5.8(2),,4.10(9),0.0003(19),4.10(19),5.75(12)";
"51-Sb-123,42.75,7/2,5.38(7),5.2(2),5.4(2),,3.64(9),0.001(4),3.64(9),3.8(2)";
"52-Te,,,5.68(2),,,,4.23(4),0.09(6),4.32(5),4.7(1)";
"52-Te-120,0.09,0,5.3(5),,,,3.5(7),0,3.5(7),2.3(3)";
"52-Te-122,2.4,0,3.8(2),,,,1.8(2),0,1.8(2),3.4(5)";
"52-Te-123,0.87,1/2,-0.05(25),-1.2(2),3.5(2),,0.002(3),0.52(5),0.52(5),418.0(30.0)";
"52-Te-124,4.61,0,7.95(10),,,,8.0(2),0,8.0(2,6.8(1.3)";
"52-Te-125,6.99,1/2,5.01(8),4.9(2),5.5(2),,3.17(10),0.008(8),3.18(10),1.55(16)";
"52-Te-126,18.71,0,5.55(7),,,,3.88(10),0,3.88(10),1.04(15)";
"52-Te-128,31.79,0,5.88(8),,,,4.36(10),0,4.36(10),0.215(8)";
"52-Te-130,34.48,0,6.01(7),,,,4.55(11),0,4.55(11),0.29(6)";
"53-I-127,100,5/2,5.28(2),6.6(2),3.4(2),,3.50(3),0.31(6),3.81(7),6.15(6)";
"54-Xe,,,4.69(4),,,,3.04(4),0,,23.9(1.2)";
"54-Xe-124,0.1,0,,,,,,0,,165.0(20.0)";
"54-Xe-126,0.09,0,,,,,,0,,3.5(8)";
"54-Xe-128,1.9,0,,,,,,0,,<8.0";
"54-Xe-129,26.14,1/2,,,,,,,,21.0(5.0)";
"54-Xe-130,3.3,0,,,,,,0,,<26.0";
"54-Xe-131,21.18,3/2,,,,,,,,85.0(10.0)";
"54-Xe-132,26.89,0,,,,,,0,,0.45(6)";
"54-Xe-134,10.4,0,,,,,,0,,0.265(20)";
"54-Xe-136,8.9,0,,,,,,0,,0.26(2)";
"55-Cs-133,100,7/2,5.42(2),,,+/-,3.69(15),0.21(5),3.90(6),29.0(1.5)";
"56-Ba,,,5.07(3),,,,3.23(4),0.15(11),3.38(10),1.1(1)";
"56-Ba-130,0.1,0,-3.6(6),,,,1.6(5),0,1.6(5),30.0(5.0)";
"56-Ba-132,0.09,0,7.8(3),,,,7.6(6),0,7.6(6),7.0(8)";
"56-Ba-134,2.4,0,5.7(1),,,,4.08(14),0,4.08(14),2.0(1.6)";
"56-Ba-135,6.59,3/2,4.66(10),,,,2.74(12),0.5(5)*,3.2(5),5.8(9)";
"56-Ba-136,7.81,0,4.90(8),,,,3.03(10),0,3.03(10),0.68(17)";
"56-Ba-137,11.32,3/2,6.82(10),,,,5.86(17),0.5(5)*,6.4(5),3.6(2)";
"56-Ba-138,71.66,0,4.83(8),,,,2.94(10),0,2.94(19),0.27(14)";
"57-La,,,8.24(4),,,,8.53(8),1.13(19),9.66(17),8.97(2)";
"57-La-138,0.09,5,8.0(2.0)*,,,,8.0(4.0),0.5(5)*,8.5(4.0),57.0(6.0)";
"57-La-139,99.91,7/2,8.24(4),11.4(3),4.5(4),+/-,8.53(8),1.13(15),9.66(17),8.93(4)";
"58-Ce,,,4.84(2),,,,2.94(2),0.00(10),2.94(10),0.63(4)";
"58-Ce-136,0.19,0,5.76(9),,,,4.23(13),0,4.23(13),7.3(1.5)";
"58-Ce-138,0.26,0,6.65(9),,,,5.64(15),0,5.64(15),1.1(3)";
"58-Ce-140,88.48,0,4.81(9),,,,2.94(11),0,2.94(11),0.57(4)";
"58-Ce-142,11.07,0,4.72(9),,,,2.84(11),0,2.84(11),0.95(5)";
"59-Pr-141,100,5/2,4.58(5),,,+/-,2.64(6),0.015(3),2.66(6),11.5(3)";
"60-Nd,,,7.69(5),,,,7.43(19),9.2(8),16.6(8),50.5(1.2)";
"60-Nd-142,27.11,0,7.7(3),,,,7.5(6),0,7.5(6),18.7(7)";
"60-Nd-143,12.17,7/2,14.0(2.0)*,,,,25.0(7.0),55.0(7.0),80.0(2.0),337.0(10.0)";
"60-Nd-144,23.85,0,2.8(3),,,,1.0(2),0,1.0(2),3.6(3)";
"60-Nd-145,8.5,7/2,14.0(2.0)*,,,,25.0(7.0),5.0(5.0)*,30.0(9.0),42.0(2.0)";
"60-Nd-146,17.22,0,8.7(2),,,,9.5(4),0,9.5(4),1.4(1)";
"60-Nd-148,5.7,0,5.7(3),,,,4.1(4),0,4.1(4),2.5(2)";
"60-Nd-150,5.6,0,5.28(20),,,,3.5(3),0,3.5(3),1.2(2)";
"61-Pm-147,2.62 Y,7/2,12.6(4),,,,20.0(1.3),1.3(2.0),21.3(1.5),168.4(3.5)";
"62-Sm,,,0.00(5),,,E,0.422(9),39.0(3.0),39.4(3.0),5922.0(56.0)";
"62-Sm-144,3.1,0,-3.0(4.0)*,,,,1.0(3.0),0,1.0(3.0),0.7(3)";
"62-Sm-147,15,7/2,14.0(3.0),,,,25.0(11.0),14.0(19.0.),39.0(16.0),57.0(3.0)";
"62-Sm-148,11.2,0,-3.0(4.0)*,,,,1.0(3.0),0,1.0(3.0),2.4(6)";
"62-Sm-149,13.8,7/2,18.7(28),,,E,63.5(6),137.0(5.0),200.0(5.0),42080.0(400.0)";
"62-Sm-150,7.4,0,14.0(3.0),,,,25.0(11.0),0,25.0(11.0),104.0(4.0)";
"62-Sm-152,26.7,0,-5.0(6),,,,3.1(8),0,3.1(8),206.0(6.0)";
"62-Sm-154,22.8,0,8.0(1.0),,,,11.0(2.0),0,11.0(2.0),8.4(5)";
"63-Eu,,,5.3(3),,,E,6.57(4),2.5(4),9.2(4),4530.0(40.0)";
"63-Eu-151,47.8,5/2,,,,E,5.5(2),3.1(4),8.6(4),9100.0(100.0)";
"63-Eu-153,52.8,5/2,8.22(12),,,,8.5(2),1.3(7),9.8(7),312.0(7.0)";
"64-Gd,,,9.5(2),,,E,29.3(8),151.0(2.0),180.0(2.0),49700.0(125.0)";
"64-Gd-152,0.2,0,10.0(3.0)*,,,,13.0(8.0),0,13.0(8.0),735.0(20.0)";
"64-Gd-154,2.2,0,10.0(3.0)*,,,,13.0(8.0),0,13.0(8.0),85.0(12.0)";
"64-Gd-155,14.9,3/2,13.8(3),,,E,40.8(4),25.0(6.0),66.0(6.0),61100.0(400.0)";
"64-Gd-156,20.6,0,6.3(4),,,,5.0(6),0,5.0(6),1.5(1.2)";
"64-Gd-157,15.7,3/2,4.0(2.0),,,E,650.0(4.0),394.0(7.0),1044.0(8.0),259000.0(700.0)";
"64-Gd-158,24.7,0,9.0(2.0),,,,10.0(5.0),0,10.0(5.0),2.2(2)";
"64-Gd-160,21.7,0,9.15(5),,,,10.52(11),0,10.52(11),0.77(2)";
"65-Tb-159,100,3/2,7.34(2),6.8(2),8.1(2),+/-,6.84(6),0.004(3),6.84(6),23.4(4)";
"66-Dy,,,16.9(3),,,,35.9(8),54.4(1.2),90.3(9),994.0(13.0)";
"66-Dy-156,0.06,0,6.1(5),,,,4.7(8),0,4.7(8),33.0(3.0)";
"66-Dy-158,0.1,0,6.0(4.0)*,,,,5.0(6.0),0,5.(6.),43.0(6.0)";
"66-Dy-160,2.3,0,6.7(4),,,,5.6(7),0,5.6(7),56.0(5.0)";
"66-Dy-161,18.9,5/2,10.3(4),,,,13.3(1.0),3.0(1.0),16.0(1.0),600.0(25.0)";
"66-Dy-162,25.5,0,-1.4(5),,,,0.25(18),0,0.25(18),194.0(10.0)";
"66-Dy-163,24.9,5/2,5.0(4),6.1(5),3.5(5),,3.1(5),0.21(19),3.3(5),124.0(7.0)";
"66-Dy-164,28.2,0,49.4(5),,,,307.0(3.0),0,307.0(3.0),2840.0(40.0)";
"67-Ho-165,100,7/2,8.44(3),6.9(2),10.3(2),+/-,8.06(8),0.36(3),8.42(16),64.7(1.2)";
"68-Er,,,7.79(2),,,,7.63(4),1.1(3),8.7(3),159.0(4.0)";
"68-Er-162,0.14,0,9.01(11),,,,9.7(4),0,9.7(4),19.0(2.0)";
"68-Er-164,1.6,0,7.95(14),,,,8.4(4),0,8.4(4),13.0(2.0)";
"68-Er-166,33.4,0,10.51(19),,,,14.1(5),0,14.1(5),19.6(1.5)";
"68-Er-167,22.9,7/2,3.06(5),5.3(3),0.0(3),,1.1(2),0.13(6),1.2(2),659.0(16.0)";
"68-Er-168,27,0,7.43(8),,,,6.9(7),0,6.9(7),2.74(8)";
"68-Er-170,15,0,9.61(6),,,,11.6(1.2),0,11.6(1.2),5.8(3)";
"69-Tm-169,100,1/2,7.07(3),,,+/-,6.28(5),0.10(7),6.38(9),100.0(2.0)";
"70-Yb,,,12.41(3),,,,19.42(9),4.0(2),23.4(2),34.8(8)";
"70-Yb-168,0.14,0,-4.07(2),,,E,2.13(2),0,2.13(2),2230.0(40.0)";
"70-Yb-170,3,0,6.8(1),,,,5.8(2),0,5.8(2),11.4(1.0)";
"70-Yb-171,14.3,1/2,9.7(1),6.5(2),19.4(4),,11.7(2),3.9(2),15.6(3),48.6(2.5)";
"70-Yb-172,21.9,0,9.5(1),,,,11.2(2),0,11.2(2),0.8(4)";
"70-Yb-173,16.3,5/2,9.56(10),2.5(2),13.3(3),,11.5(2),3.5,15,17.1(1.3)";
"70-Yb-174,31.8,0,19.2(1),,,,46.8(5),0,46.8(5),69.4(5.0)";
"70-Yb-176,12.7,0,8.7(1),,,,9.6(2),0,9.6(2),2.85(5)";
"71-Lu,,,7.21(3),,,,6.53(5),0.7(4),7.2(4),74.0(2.0)";
"71-Lu-175,97.4,7/2,7.28(9),,,,6.59(5),0.6(4),7.2(4),21.0(3.0)";
"71-Lu-176,2.6,7,6.1(2),,,,4.7(2),1.2(3),5.9,2065.(35.)";
"72-Hf,,,7.77(14),,,,7.6(3),2.6(5),10.2(4),104.1(5)";
"72-Hf-174,0.184,0,10.9(1.1),,,,15.0(3.0),0,15.0(3.0),561.0(35.0)";
"72-Hf-176,5.2,0,6.61(18),,,,5.5(3),0,5.5(3),23.5(3.1)";
"72-Hf-177,18.5,0,0.8(1.0)*,,,,0.1(2),0.1(3),0.2(2),373.0(10.0)";
"72-Hf-178,27.2,0,5.9(2),,,,4.4(3),0,4.4(3),84.0(4.0)";
"72-Hf-179,13.8,9/2,7.46(16),,,,7.0(3),0.14(2),7.1(3),41.0(3.0)";
"72-Hf-180,35.1,0,13.2(3),,,,21.9(1.0),0,21.9(1.0),13.04(7)";
"73-Ta,,,6.91(7),,,,6.00(12),0.01(17),6.01(12),20.6(5)";
"73-Ta-180,0.012,9,7.0(2.0)*,,,,6.2(3.5),0.5(5)*,7.0(4.0),563.0(60.0)";
"73-Ta-181,99.98,7/2,6.91(7),,,+/-,6.00(12),0.011(2),6.01(12),20.5(5)";
"74-W,,,4.755(18),,,,2.97(2),1.63(6),4.60(6),18.3(2)";
"74-W-180,0.13,0,5.0(3.0)*,,,,3.0(4.0),0,3.0(4.0),30.0(20.0)";
"74-W-182,26.3,1/2,7.04(4),,,,6.10(7),0,6.10(7),20.7(5)";
"74-W-183,14.3,1/2,6.59(4),6.3(4),7.0(4),,5.36(7),0.3(3)*,5.7(3),10.1(3)";
"74-W-184,30.7,0,7.55(6),,,,7.03(11),0,7.03(11),1.7(1)";
"74-W-186,28.6,0,-0.73(4),,,,0.065(7),0,0.065(7),37.9(6)";
"75-Re,,,9.2(2),,,,10.6(5),0.9(6),11.5(3),89.7(1.0)";
"75-Re-185,37.5,5/2,9.0(3),,,,10.2(7),0.5(9),10.7(6),112.0(2.0)";
"75-Re-187,62.5,5/2,9.3(3),,,,10.9(7),1.0(6),11.9(4),76.4(1.0)";
"76-Os,,,10.7(2),,,,14.4(5),0.3(8),14.7(6),16.0(4.0)";
"76-Os-184,0.02,0,10.0(2.0)*,,,,13.0(5.0),0,13.0(5.0),3000.0(150.0)";
"76-Os-186,1.6,0,12.0(1.7),,,,17.0(5.0),0,17.0(5.0),80.0(13.0)";
"76-Os-187,1.6,1/2,10.0(2.0)*,,,,13.0(5.0),0.3(3)*,13.0(5.0),320.0(10.0)";
"76-Os-188,13.3,0,7.8(3),,,,7.3(6),0,7.3(6),4.7(5)";
"76-Os-189,16.1,3/2,11.0(3),,,,14.4(8),0.5(5)*,14.9(9),25.0(4.0)";
"76-Os-190,26.4,0,11.4(3),,,,15.2(8),0,15.2(8),13.1(3)";
"76-Os-192,41,0,11.9(4),,,,16.6(1.2),0,16.6(1.2),2.0(1)";
"77-Ir,,,10.6(3),,,,14.1(8),0.0(3.0),14.0(3.0),425.0(2.0)";
"77-Ir-191,37.4,3/2,,,,,,,,954.0(10.0)";
"77-Ir-193,62.6,3/2,,,,,,,,111.0(5.0)";
"78-Pt,,,9.60(1),,,,11.58(2),0.13(11),11.71(11),10.3(3)";
"78-Pt-190,0.01,0,9.0(1.0),,,,10.0(2.0),0,10.0(2.0),152.0(4.0)";
"78-Pt-192,1.78,0,9.9(5),,,,12.3(1.2),0,12.3(1.2),10.0(2.5)";
"78-Pt-194,32.9,0,10.55(8),,,,14.0(2),0,14.0(2),1.44(19)";
"78-Pt-195,33.8,1/2,8.91(9),9.5(3),7.2(3),+/-,9.8(2),0.13(4),9.9(2),27.5(1.2)";
"78-Pt-196,25.3,0,9.89(8),,,,12.3(2),0,12.3(2),0.72(4)";
"78-Pt-198,7.2,0,7.8(1),,,,7.6(2),0,7.6(2),3.66(19)";
"79-Au-197,100,3/2,7.90(7),6.26(10),9.90(14),+/-,7.32(12),0.43(5),7.75(13),98.65(9)";
"80-Hg,,,12.595(45),,,,20.24(5),6.6(1),26.8(1),372.3(4.0)";
"80-Hg-196,0.15,0,30.3(1.0),,,E,115.0(8.0),0,115.0(8.0),3080.0(180.0)";
"80-Hg-198,10.1,0,,,,,,0,,2.0(3)";
"80-Hg-199,16.9,0,16.9(4),,,E,36.0(2.0),30.0(3.0),66.0(2.0),2150.0(48.0)";
"80-Hg-200,23.1,0,,,,,,0,,<60.0";
"80-Hg-201,13.2,3/2,,,,,,,,7.8(2.0)";
"80-Hg-202,29.7,0,11.002(43),,,,15.2108(2),0,15.2108(2),4.89(5)";
"80-Hg-204,6.8,0,,,,,,0,,0.43(10)";
"81-Tl,,,8.776(5),,,,9.678(11),0.21(15),9.89(15),3.43(6)";
"81-Tl-203,29.5,1/2,8.51(8),9.08(10),6.62(10),,6.14(28),0.14(4),6.28(28),11.4(2)";
"81-Tl-205,70.5,1/2,8.87(7),5.15(10),9.43(10),+/-,11.39(17),0.007(1),11.40(17),0.104(17)";
"82-Pb,,,9.401(2),,,,11.115(7),0.0030(7),11.118(7),0.171(2)";
"82-Pb-204,1.4,0,10.893(78),,,,12.3(2),0,12.3(2),0.65(7)";
"82-Pb-206,24.1,0,9.221(78),,,,10.68(12),0,10.68(12),0.0300(8)";
"82-Pb-207,22.1,1/2,9.286(16),,,+/-,10.82(9),0.002(2),10.82(9),0.699(10)";
"82-Pb-208,52.4,0,9.494(30),,,,11.34(5),0,11.34(5),0.00048(3)";
"83-Bi-209,100,9/2,8.532(2),8.26(1),8.74(1),,9.148(4),0.0084(19),9.156(4),0.0338(7)";
"88-Ra-226,1620 Y,0,10.0(1.0),,,,13.0(3.0),0,13.0(3.0),12.8(1.5)";
"90-Th-232,100,0,10.31(3),,,,13.36(8),0,13.36(8),7.37(6)";
"91-Pa-231,32500 Y,3/2,9.1(3),,,,10.4(7),0.1(3.3),10.5(3.2),200.6(2.3)";
"92-U,,,8.417(5),,,,8.903(11),0.005(16),8.908(11),7.57(2)";
"92-U-233,159000 Y,5/2,10.1(2),,,,12.8(5),0.1(6),12.9(3),574.7(1.0)";
"92-U-234,0.005,0,12.4(3),,,,19.3(9),0,19.3(9),100.1(1.3)";
"92-U-235,0.72,7/2,10.50(3),,,,13.78(11),0.2(2),14.0(2),680.9(1.1)";
"92-U-238,99.27,0,8.407(7),,,,8.871(11),0,8.871(11),2.68(2)";
"93-Np-237,2140000 Y,5/2,10.55(10),,,,14.0(3),0.5(5)*,14.5(6),175.9(2.9)";
"94-Pu-239,24400 Y,1/2,7.7(1),,,,7.5(2),0.2(6),7.7(6),1017.3(2.1)";
"94-Pu-240,6540 Y,0,3.5(1),,,,1.54(9),0,1.54(9),289.6(1.4)";
"94-Pu-242,376000 Y,0,8.1(1),,,,8.2(2),0,8.2(2),18.5(5)";
"95-Am-243,7370 Y,5/2,8.3(2),,,,8.7(4),0.3(2.6),9.0(2.6),75.3(1.8)";
"96-Cm-244,17.9 Y,0,9.5(3),,,,11.3(7),0,11.3(7),16.2(1.2)";
"96-Cm-246,4700 Y,0,9.3(2),,,,10.9(5),0,10.9(5),1.36(17)";
"96-Cm-248,340000 Y,0,7.7(2),,,,7.5(4),0,7.5(4),3.00(26)"]%string.
(** atomic number, symbol, mass number and abundance or half-life of an isotope, scattering length; src/runtime/nsftable.dat *)
Definition shipped_neutrons : list (string * string * option (string * string) * string) := [
("0", "n", Some ("1", "618 S"), "-37.0(6)");
("1", "H", None, "-3.7409(11)");
("1", "H", Some ("1", "99.985"), "-3.7423(12)");
("1", "H", Some ("2", "0.0149"), "6.674(6)");
("1", "H", Some ("3", "12.26 Y"), "4.792(27)");
("2", "He", None, "3.26(3)");
("2", "He", Some ("3", "0.013"), "5.74(7)");
("2", "He", Some ("4", "99.987"), "3.26(3)");
("3", "Li", None, "-1.90(3)");
("3", "Li", Some ("6", "7.5"), "2.0(1)");
("3", "Li", Some ("7", "92.5"), "-2.22(2)");
("4", "Be", Some ("9", "100"), "7.79(1)");
("5", "B", None, "5.30(4)");
("5", "B", Some ("10", "19.4"), "-0.2(4)");
("5", "B", Some ("11", "80.2"), "6.65(4)");
("6", "C", None, "6.6484(13)");
("6", "C", Some ("12", "98.89"), "6.6535(14)");
("6", "C", Some ("13", "1.11"), "6.19(9)");
("7", "N", None, "9.36(2)");
("7", "N", Some ("14", "99.635"), "9.37(2)");
("7", "N", Some ("15", "0.365"), "6.44(3)");
("8", "O", None, "5.805(4)");
("8", "O", Some ("16", "99.75"), "5.805(5)");
("8", "O", Some ("17", "0.039"), "5.6(5)");
("8", "O", Some ("18", "0.208"), "5.84(7)");
("9", "F", Some ("19", "100"), "5.654(12)");
("10", "Ne", None, "4.566(6)");
("10", "Ne", Some ("20", "90.5"), "4.631(6)");
("10", "Ne", Some ("21", "0.27"), "6.66(19)");
("10", "Ne", Some ("22", "9.2"), "3.87(1)");
("11", "Na", Some ("23", "100"), "3.63(2)");
("12", "Mg", None, "5.375(4)");
("12", "Mg", Some ("24", "78.99"), "5.49(18)");
("12", "Mg", Some ("25", "10"), "3.62(14)");
("12", "Mg", Some ("26", "11"), "4.89(15)");
("13", "Al", Some ("27", "100"), "3.449(5)");
("14", "Si", None, "4.15071(22)");
("14", "Si", Some ("28", "92.2"), "4.106(6)");
("14", "Si", Some ("29", "4.7"), "4.7(1)");
("14", "Si", Some ("30", "3.1"), "4.58(8)");
("15", "P", Some ("31", "100"), "5.13(1)");
("16", "S", None, "2.847(1)");
("16", "S", Some ("32", "95"), "2.804(2)");
("16", "S", Some ("33", "0.74"), "4.74(19)");
("16", "S", Some ("34", "4.2"), "3.48(3)");
("16", "S", Some ("36", "0.02"), "3.0(1.0)*");
("17", "Cl", None, "9.5792(8)");
("17", "Cl", Some ("35", "75.77"), "11.70(9)");
("17", "Cl", Some ("37", "24.23"), "3.08(6)");
("18", "Ar", None, "1.909(6)");
("18", "Ar", Some ("36", "0.34"), "24.9(7)");
("18", "Ar", Some ("38", "0.07"), "3.5(3.5)");
("18", "Ar", Some ("40", "99.59"), "1.7");
("19", "K", None, "3.67(2)");
("19", "K", Some ("39", "93.3"), "3.79(2)");
("19", "K", Some ("40", "0.012"), "3.1(1.0)*");
("19", "K", Some ("41", "6.7"), "2.69(8)");
("20", "Ca", None, "4.70(2)");
("20", "Ca", Some ("40", "96.94"), "4.78(5)");
("20", "Ca", Some ("42", "0.64"), "3.36(10)");
("20", "Ca", Some ("43", "0.13"), "-1.56(9)");
("20", "Ca", Some ("44", "2.13"), "1.42(6)");
("20", "Ca", Some ("46", "0.003"), "3.55(21)");
("20", "Ca", Some ("48", "0.18"), "0.39(9)");
("21", "Sc", Some ("45", "100"), "12.1(1)");
("22", "Ti", None, "-3.370(13)");
("22", "Ti", Some ("46", "8"), "4.72(5)");
("22", "Ti", Some ("47", "7.5"), "3.53(7)");
("22", "Ti", Some ("48", "73.7"), "-5.86(2)");
("22", "Ti", Some ("49", "5.5"), "0.98(5)");
("22", "Ti", Some ("50", "5.3"), "5.88(10)");
("23", "V", None, "-0.443(14)");
("23", "V", Some ("50", "0.25"), "7.6(6)*");
("23", "V", Some ("51", "99.75"), "-0.402(2)");
("24", "Cr", None, "3.635(7)");
("24", "Cr", Some ("50", "4.35"), "-4.50(5)");
("24", "Cr", Some ("52", "83.8"), "4.914(15)");
("24", "Cr", Some ("53", "9.59"), "-4.20(3)");
("24", "Cr", Some ("54", "2.36"), "4.55(10)");
("25", "Mn", Some ("55", "100"), "-3.750(18)");
("26", "Fe", None, "9.45(2)");
("26", "Fe", Some ("54", "5.8"), "4.2(1)");
("26", "Fe", Some ("56", "91.7"), "10.1(2)");
("26", "Fe", Some ("57", "2.19"), "2.3(1)");
("26", "Fe", Some ("58", "0.28"), "15(7)");
("27", "Co", Some ("59", "100"), "2.49(2)");
("28", "Ni", None, "10.3(1)");
("28", "Ni", Some ("58", "67.88"), "14.4(1)");
("28", "Ni", Some ("60", "26.23"), "2.8(1)");
("28", "Ni", Some ("61", "1.19"), "7.60(6)");
("28", "Ni", Some ("62", "3.66"), "-8.7(2)");
("28", "Ni", Some ("64", "1.08"), "-0.37(7)");
("29", "Cu", None, "7.718(4)");
("29", "Cu", Some ("63", "69.1"), "6.477(13)");
("29", "Cu", Some ("65", "30.9"), "10.204(20)");
("30", "Zn", None, "5.680(5)");
("30", "Zn", Some ("64", "48.9"), "5.23(4)");
("30", "Zn", Some ("66", "27.8"), "5.98(5)");
("30", "Zn", Some ("67", "4.1"), "7.58(8)");
("30", "Zn", Some ("68", "18.6"), "6.04(3)");
("30", "Zn", Some ("70", "0.62"), "6.9(1.0)*");
("31", "Ga", None, "7.288(2)");
("31", "Ga", Some ("69", "60"), "8.043(16)");
("31", "Ga", Some ("71", "40"), "6.170(11)");
("32", "Ge", None, "8.185(20)");
("32", "Ge", Some ("70", "20.7"), "10.0(1)");
("32", "Ge", Some ("72", "27.5"), "8.51(10)");
("32", "Ge", Some ("73", "7.7"), "5.02(4)");
("32", "Ge", Some ("74", "36.4"), "7.58(10)");
("32", "Ge", Some ("76", "7.7"), "8.2(1.5)");
("33", "As", Some ("75", "100"), "6.58(1)");
("34", "Se", None, "7.970(9)");
("34", "Se", Some ("74", "0.9"), "0.8(3.0)");
("34", "Se", Some ("76", "9"), "12.2(1)");
("34", "Se", Some ("77", "7.5"), "8.25(8)");
("34", "Se", Some ("78", "23.5"), "8.24(9)");
("34", "Se", Some ("80", "50"), "7.48(3)");
("34", "Se", Some ("82", "8.84"), "6.34(8)");
("35", "Br", None, "6.79(2)");
("35", "Br", Some ("79", "50.49"), "6.79(7)");
("35", "Br", Some ("81", "49.31"), "6.78(7)");
("36", "Kr", None, "7.81(2)");
("36", "Kr", Some ("86", "17.3"), "8.07(26)");
("37", "Rb", None, "7.08(2)");
("37", "Rb", Some ("85", "72.17"), "7.07(10)");
("37", "Rb", Some ("87", "27.83"), "7.27(12)");
("38", "Sr", None, "7.02(2)");
("38", "Sr", Some ("84", "0.56"), "5.0(2.0)");
("38", "Sr", Some ("86", "9.9"), "5.68(5)");
("38", "Sr", Some ("87", "7"), "7.41(7)");
("38", "Sr", Some ("88", "82.6"), "7.16(6)");
("39", "Y", Some ("89", "100"), "7.75(2)");
("40", "Zr", None, "7.16(3)");
("40", "Zr", Some ("90", "51.48"), "6.5(1)");
("40", "Zr", Some ("91", "11.23"), "8.8(1)");
("40", "Zr", Some ("92", "17.11"), "7.5(2)");
("40", "Zr", Some ("94", "17.4"), "8.3(2)");
("40", "Zr", Some ("96", "2.8"), "5.5(1)");
("41", "Nb", Some ("93", "100"), "7.054(3)");
("42", "Mo", None, "6.715(20)");
("42", "Mo", Some ("92", "15.48"), "6.93(8)");
("42", "Mo", Some ("94", "9.1"), "6.82(7)");
("42", "Mo", Some ("95", "15.72"), "6.93(7)");
("42", "Mo", Some ("96", "16.53"), "6.22(6)");
("42", "Mo", Some ("97", "9.5"), "7.26(8)");
("42", "Mo", Some ("98", "23.78"), "6.60(7)");
("42", "Mo", Some ("100", "9.6"), "6.75(7)");
("43", "Tc", Some ("99", "210000 Y"), "6.8(3)");
("44", "Ru", None, "7.02(2)");
("45", "Rh", Some ("103", "100"), "5.90(4)");
("46", "Pd", None, "5.91(6)");
("46", "Pd", Some ("102", "1"), "7.7(7)*");
("46", "Pd", Some ("104", "11"), "7.7(7)*");
("46", "Pd", Some ("105", "22.33"), "5.5(3)");
("46", "Pd", Some ("106", "27.33"), "6.4(4)");
("46", "Pd", Some ("108", "26.71"), "4.1(3)");
("46", "Pd", Some ("110", "11.8"), "7.7(7)*");
("47", "Ag", None, "5.922(7)");
("47", "Ag", Some ("107", "51.8"), "7.555(11)");
("47", "Ag", Some ("109", "48.2"), "4.165(11)");
("48", "Cd", None, "4.83(5)");
("48", "Cd", Some ("106", "1.2"), "5.0(2.0)*");
("48", "Cd", Some ("108", "0.9"), "5.31(24)");
("48", "Cd", Some ("110", "12.39"), "5.78(8)");
("48", "Cd", Some ("111", "12.75"), "6.47(8)");
("48", "Cd", Some ("112", "24.07"), "6.34(6)");
("48", "Cd", Some ("113", "12.36"), "-8.0(1)");
("48", "Cd", Some ("114", "28.86"), "7.48(5)");
("48", "Cd", Some ("116", "7.58"), "6.26(9)");
("49", "In", None, "4.065(20)");
("49", "In", Some ("113", "4.28"), "5.39(6)");
("49", "In", Some ("115", "95.72"), "4.00(3)");
("50", "Sn", None, "6.225(2)");
("50", "Sn", Some ("112", "1"), "6.0(1.0)*");
("50", "Sn", Some ("114", "0.66"), "6.0(3)");
("50", "Sn", Some ("115", "0.35"), "6.0(1.0)*");
("50", "Sn", Some ("116", "14.3"), "6.10(1)");
("50", "Sn", Some ("117", "7.61"), "6.59(8)");
("50", "Sn", Some ("118", "24.03"), "6.23(4)");
("50", "Sn", Some ("119", "8.58"), "6.28(3)");
("50", "Sn", Some ("120", "32.86"), "6.67(4)");
("50", "Sn", Some ("122", "4.72"), "5.93(3)");
("50", "Sn", Some ("124", "5.94"), "6.15(3)");
("51", "Sb", None, "5.57(3)");
("51", "Sb", Some ("121", "57.25"), "5.71(6)");
("51", "Sb", Some ("123", "42.75"), "5.38(7)");
("52", "Te", None, "5.68(2)");
("52", "Te", Some ("120", "0.09"), "5.3(5)");
("52", "Te", Some ("122", "2.4"), "3.8(2)");
("52", "Te", Some ("123", "0.87"), "-0.05(25)");
("52", "Te", Some ("124", "4.61"), "7.95(10)");
("52", "Te", Some ("125", "6.99"), "5.01(8)");
("52", "Te", Some ("126", "18.71"), "5.55(7)");
("52", "Te", Some ("128", "31.79"), "5.88(8)");
("52", "Te", Some ("130", "34.48"), "6.01(7)");
("53", "I", Some ("127", "100"), "5.28(2)");
("54", "Xe", None, "4.69(4)");
("55", "Cs", Some ("133", "100"), "5.42(2)");
("56", "Ba", None, "5.07(3)");
("56", "Ba", Some ("130", "0.1"), "-3.6(6)");
("56", "Ba", Some ("132", "0.09"), "7.8(3)");
("56", "Ba", Some ("134", "2.4"), "5.7(1)");
("56", "Ba", Some ("135", "6.59"), "4.66(10)");
("56", "Ba", Some ("136", "7.81"), "4.90(8)");
("56", "Ba", Some ("137", "11.32"), "6.82(10)");
("56", "Ba", Some ("138", "71.66"), "4.83(8)");
("57", "La", None, "8.24(4)");
("57", "La", Some ("138", "0.09"), "8.0(2.0)*");
("57", "La", Some ("139", "99.91"), "8.24(4)");
("58", "Ce", None, "4.84(2)");
("58", "Ce", Some ("136", "0.19"), "5.76(9)");
("58", "Ce", Some ("138", "0.26"), "6.65(9)");
("58", "Ce", Some ("140", "88.48"), "4.81(9)");
("58", "Ce", Some ("142", "11.07"), "4.72(9)");
("59", "Pr", Some ("141", "100"), "4.58(5)");
("60", "Nd", None, "7.69(5)");
("60", "Nd", Some ("142", "27.11"), "7.7(3)");
("60", "Nd", Some ("143", "12.17"), "14.0(2.0)*");
("60", "Nd", Some ("144", "23.85"), "2.8(3)");
("60", "Nd", Some ("145", "8.5"), "14.0(2.0)*");
("60", "Nd", Some ("146", "17.22"), "8.7(2)");
("60", "Nd", Some ("148", "5.7"), "5.7(3)");
("60", "Nd", Some ("150", "5.6"), "5.28(20)");
("61", "Pm", Some ("147", "2.62 Y"), "12.6(4)");
("62", "Sm", None, "0.00(5)");
("62", "Sm", Some ("144", "3.1"), "-3.0(4.0)*");
("62", "Sm", Some ("147", "15"), "14.0(3.0)");
("62", "Sm", Some ("148", "11.2"), "-3.0(4.0)*");
("62", "Sm", Some ("149", "13.8"), "18.7(28)");
("62", "Sm", Some ("150", "7.4"), "14.0(3.0)");
("62", "Sm", Some ("152", "26.7"), "-5.0(6)");
("62", "Sm", Some ("154", "22.8"), "8.0(1.0)");
("63", "Eu", None, "5.3(3)");
("63", "Eu", Some ("153", "52.8"), "8.22(12)");
("64", "Gd", None, "9.5(2)");
("64", "Gd", Some ("152", "0.2"), "10.0(3.0)*");
("64", "Gd", Some ("154", "2.2"), "10.0(3.0)*");
("64", "Gd", Some ("155", "14.9"), "13.8(3)");
("64", "Gd", Some ("156", "20.6"), "6.3(4)");
("64", "Gd", Some ("157", "15.7"), "4.0(2.0)");
("64", "Gd", Some ("158", "24.7"), "9.0(2.0)");
("64", "Gd", Some ("160", "21.7"), "9.15(5)");
("65", "Tb", Some ("159", "100"), "7.34(2)");
("66", "Dy", None, "16.9(3)");
("66", "Dy", Some ("156", "0.06"), "6.1(5)");
("66", "Dy", Some ("158", "0.1"), "6.0(4.0)*");
("66", "Dy", Some ("160", "2.3"), "6.7(4)");
("66", "Dy", Some ("161", "18.9"), "10.3(4)");
("66", "Dy", Some ("162", "25.5"), "-1.4(5)");
("66", "Dy", Some ("163", "24.9"), "5.0(4)");
("66", "Dy", Some ("164", "28.2"), "49.4(5)");
("67", "Ho", Some ("165", "100"), "8.44(3)");
("68", "Er", None, "7.79(2)");
("68", "Er", Some ("162", "0.14"), "9.01(11)");
("68", "Er", Some ("164", "1.6"), "7.95(14)");
("68", "Er", Some ("166", "33.4"), "10.51(19)");
("68", "Er", Some ("167", "22.9"), "3.06(5)");
("68", "Er", Some ("168", "27"), "7.43(8)");
("68", "Er", Some ("170", "15"), "9.61(6)");
("69", "Tm", Some ("169", "100"), "7.07(3)");
("70", "Yb", None, "12.41(3)");
("70", "Yb", Some ("168", "0.14"), "-4.07(2)");
("70", "Yb", Some ("170", "3"), "6.8(1)");
("70", "Yb", Some ("171", "14.3"), "9.7(1)");
("70", "Yb", Some ("172", "21.9"), "9.5(1)");
("70", "Yb", Some ("173", "16.3"), "9.56(10)");
("70", "Yb", Some ("174", "31.8"), "19.2(1)");
("70", "Yb", Some ("176", "12.7"), "8.7(1)");
("71", "Lu", None, "7.21(3)");
("71", "Lu", Some ("175", "97.4"), "7.28(9)");
("71", "Lu", Some ("176", "2.6"), "6.1(2)");
("72", "Hf", None, "7.77(14)");
("72", "Hf", Some ("174", "0.184"), "10.9(1.1)");
("72", "Hf", Some ("176", "5.2"), "6.61(18)");
("72", "Hf", Some ("177", "18.5"), "0.8(1.0)*");
("72", "Hf", Some ("178", "27.2"), "5.9(2)");
("72", "Hf", Some ("179", "13.8"), "7.46(16)");
("72", "Hf", Some ("180", "35.1"), "13.2(3)");
("73", "Ta", None, "6.91(7)");
("73", "Ta", Some ("180", "0.012"), "7.0(2.0)*");
("73", "Ta", Some ("181", "99.98"), "6.91(7)");
("74", "W", None, "4.755(18)");
("74", "W", Some ("180", "0.13"), "5.0(3.0)*");
("74", "W", Some ("182", "26.3"), "7.04(4)");
("74", "W", Some ("183", "14.3"), "6.59(4)");
("74", "W", Some ("184", "30.7"), "7.55(6)");
("74", "W", Some ("186", "28.6"), "-0.73(4)");
("75", "Re", None, "9.2(2)");
("75", "Re", Some ("185", "37.5"), "9.0(3)");
("75", "Re", Some ("187", "62.5"), "9.3(3)");
("76", "Os", None, "10.7(2)");
("76", "Os", Some ("184", "0.02"), "10.0(2.0)*");
("76", "Os", Some ("186", "1.6"), "12.0(1.7)");
("76", "Os", Some ("187", "1.6"), "10.0(2.0)*");
("76", "Os", Some ("188", "13.3"), "7.8(3)");
("76", "Os", Some ("189", "16.1"), "11.0(3)");
("76", "Os", Some ("190", "26.4"), "11.4(3)");
("76", "Os", Some ("192", "41"), "11.9(4)");
("77", "Ir", None, "10.6(3)");
("78", "Pt", None, "9.60(1)");
("78", "Pt", Some ("190", "0.01"), "9.0(1.0)");
("78", "Pt", Some ("192", "1.78"), "9.9(5)");
("78", "Pt", Some ("194", "32.9"), "10.55(8)");
("78", "Pt", Some ("195", "33.8"), "8.91(9)");
("78", "Pt", Some ("196", "25.3"), "9.89(8)");
("78", "Pt", Some ("198", "7.2"), "7.8(1)");
("79", "Au", Some ("197", "100"), "7.90(7)");
("80", "Hg", None, "12.595(45)");
("80", "Hg", Some ("196", "0.15"), "30.3(1.0)");
("80", "Hg", Some ("199", "16.9"), "16.9(4)");
("80", "Hg", Some ("202", "29.7"), "11.002(43)");
("81", "Tl", None, "8.776(5)");
("81", "Tl", Some ("203", "29.5"), "8.51(8)");
("81", "Tl", Some ("205", "70.5"), "8.87(7)");
("82", "Pb", None, "9.401(2)");
("82", "Pb", Some ("204", "1.4"), "10.893(78)");
("82", "Pb", Some ("206", "24.1"), "9.221(78)");
("82", "Pb", Some ("207", "22.1"), "9.286(16)");
("82", "Pb", Some ("208", "52.4"), "9.494(30)");
("83", "Bi", Some ("209", "100"), "8.532(2)");
("88", "Ra", Some ("226", "1620 Y"), "10.0(1.0)");
("90", "Th", Some ("232", "100"), "10.31(3)");
("91", "Pa", Some ("231", "32500 Y"), "9.1(3)");
("92", "U", None, "8.417(5)");
("92", "U", Some ("233", "159000 Y"), "10.1(2)");
("92", "U", Some ("234", "0.005"), "12.4(3)");
("92", "U", Some ("235", "0.72"), "10.50(3)");
("92", "U", Some ("238", "99.27"), "8.407(7)");
("93", "Np", Some ("237", "2140000 Y"), "10.55(10)");
("94", "Pu", Some ("239", "24400 Y"), "7.7(1)");
("94", "Pu", Some ("240", "6540 Y"), "3.5(1)");
("94", "Pu", Some ("242", "376000 Y"), "8.1(1)");
("95", "Am", Some ("243", "7370 Y"), "8.3(2)");
("96", "Cm", Some ("244", "17.9 Y"), "9.5(3)");
("96", "Cm", Some ("246", "4700 Y"), "9.3(2)");
("96", "Cm", Some ("248", "340000 Y"), "7.7(2)")]%string.
(** src/runtime/f0_WaasKirf.dat *)
Definition waaskirf_dat : list string := [
"#F f0_WaasKirf.dat                                                           ";
"#UT  Elastic Photon-Atom Scattering, relativistic form factors.              ";
"#UF0TYPE PARAMETRIZATION ; TABLE OR PARAMETRIZATION? ";
"#UIDL xf0";
"#C   This file has been created using f0_WaasKirf.tcl ";
"#D   Tue Oct  1 14:37:14 CEST 2002";
"#C  This file belongs to the DABAX library. More information on";
"#C  DABAX can be found at:";
"#C  http://www.esrf.fr/computing/scientific/dabax";
"#UD  Elastic Photon-Atom Scattering, relativistic form factors.              ";
"#UD                                                                          ";
"#UD  This data set contains data calculated by D. Waasmaier & A. Kirfel.     ";
"#UD  The original data is available from :                                   ";
"#UD          ftp://wrzx02.rz.uni-wuerzburg.de/pub/local/Crystallography      ";
"#UD  These data, computed for neutral atoms and ions are valid for the full  ";
"#UD  range of sin(theta)/lambda from 0.0 to 6.0 A-1.This table have been     ";
"#UD  developped from fits of o linear combination of five Gaussians to the   ";
"#UD  values of the scattering factors tabulated in ""International tables for ";
"#UD  Crystallography (1992) [Vol. C. Dordrecht: Kluwer Academic Publishers]. ";
"#UD  For a detailed discussion of the underlying validity of the             ";
"#UD  information contained in these directories see, for example:            ";
"#UD                                                                          ";
"#UD          New Analytical Scattering Factor Functions for Free Atoms       ";
"#UD                    and Ions for Free Atoms and Ions                      ";
"#UD                       D. Waasmaier & A. Kirfel                           ";
"#UD                    Acta Cryst. (1995). A51, 416-413                      ";
"#UD                                                                          ";
"#UD  fo the non-dispersive part of the atomic scattering factor is a	    ";
"#UD  function of the selected element and of sin(theta)/lambda, where	    ";
"#UD  lambda is the photon wavelengh and theta is incident angle.		    ";
"#UD  This function can be approximated by a function:			    ";
"#UD                                                                          ";
"#UD    f0[k] = c + [SUM a_i*EXP(-b_i*(k^2)) ]				    ";
"#UD                i=1,5							    ";
"#UD                                                                          ";
"#UD  where k = sin(theta) / lambda and c, a_i and b_i			    ";
"#UD  are the coefficients tabulated in this file (in columns: 		    ";
"#UD  a1  a2  a3  a4  a5  c  b1  b2  b3  b4  b5				    ";
"#C                                                                           ";
"#C    The original README fime from D. Waasmaier & A. Kirfel follows here :  ";
"#C                                                                           ";
"#UO                          April, 1995                                     ";
"#UO                                                                          ";
"#UO This directory contains the results of the publication:                  ";
"#UO                                                                          ";
"#UO    New Analytical Scattering Factor Functions for Free Atoms and Ions    ";
"#UO                        D. Waasmaier & A. Kirfel                          ";
"#UO                     Acta Cryst. (1995). A51, 416-413                     ";
"#UO                                                                          ";
"#UO - *.zip: A detailed compilation of all relevant results (one page per    ";
"#UO      atom or ion) has been prepared in form of an 'atlas'. This atlas is    ";
"#UO      stored in the postscript-files                                         ";
"#UO      sfac10.zip - sfac98.zip for atoms with increasing atom number and      ";
"#UO      sfaci1.zip - sfaci6.zip for ions, again with increasing atom number.   ";
"#UO                                                                             ";
"#UO - abstract.ps contains an extract of the publication refering to the atlas. ";
"#UO                                                                             ";
"#UO - sfac.dat contains the new parameters ai, bi and c for all atoms and ions. ";
"#UO                                                                             ";
"#UO      Fitparameters of all atoms/ions (with the excepetion of O1-)           ";
"#UO      from publication ""New Analytical Scattering Factor Functions for       ";
"#UO      Free Atoms and Ions"", D. Waasmaier & A. Kirfel, Acta Cryst. A 95       ";
"#UO                                                                             ";
"#UO      Fit for O1- based on the tabulated values of Table 2 (D.REZ,           ";
"#UO      P.REZ & I.GRANT, Acta Cryst. (1994), A50, 481-497).                    ";
"#UO                                                                             ";
"#UO      Fits for all other atoms/ions based on the tabulated values            ";
"#UO      of Table 6.1.1.1 (atoms) and Table 6.1.1.3 (ions)                      ";
"#UO      (International Tables for Crystallography, Vol. C, 1992).              ";
"#S  1  H";
"#N 11";
"#L a1  a2  a3  a4  a5  c  b1  b2  b3  b4  b5";
"  0.413048  0.294953  0.187491  0.080701  0.023736  0.000049  15.569946 32.398468  5.711404 61.889874  1.334118  ";
"#S  1  H1-";
"#N 11";
"#L a1  a2  a3  a4  a5  c  b1  b2  b3  b4  b5";
"  0.702260  0.763666  0.248678  0.261323  0.023017  0.000425  23.945604 74.897919  6.773289 233.583450  1.337531  ";
"#S  2  He";
"#N 11";
"#L a1  a2  a3  a4  a5  c  b1  b2  b3  b4  b5";
"  0.732354  0.753896  0.283819  0.190003  0.039139  0.000487  11.553918  4.595831  1.546299 26.463964  0.377523  ";
"#S  3  Li";
"#N 11";
"#L a1  a2  a3  a4  a5  c  b1  b2  b3  b4  b5";
"  0.974637  0.158472  0.811855  0.262416  0.790108  0.002542   4.334946  0.342451 97.102966 201.363831  1.409234  ";
"#S  3  Li1+";
"#N 11";
"#L a1  a2  a3  a4  a5  c  b1  b2  b3  b4  b5";
"  0.432724  0.549257  0.376575 -0.336481  0.976060  0.001764   0.260367  1.042836  7.885294  0.260368  3.042539  ";
"#S  4  Be";
"#N 11";
"#L a1  a2  a3  a4  a5  c  b1  b2  b3  b4  b5";
"  1.533712  0.638283  0.601052  0.106139  1.118414  0.002511  42.662079  0.595420 99.106499  0.151340  1.843093  ";
"#S  4  Be2+";
"#N 11";
"#L a1  a2  a3  a4  a5  c  b1  b2  b3  b4  b5";
"  3.055430 -2.372617  1.044914  0.544233  0.381737 -0.653773   0.001226  0.001227  1.542106  0.456279  4.047479  ";
"#S  5  B";
"#N 11";
"#L a1  a2  a3  a4  a5  c  b1  b2  b3  b4  b5";
"  2.085185  1.064580  1.062788  0.140515  0.641784  0.003823  23.494068  1.137894 61.238976  0.114886  0.399036  ";
"#S  6  C";
"#N 11";
"#L a1  a2  a3  a4  a5  c  b1  b2  b3  b4  b5";
"  2.657506  1.078079  1.490909 -4.241070  0.713791  4.297983  14.780758  0.776775 42.086842 -0.000294  0.239535  ";
"#S  6  Cval";
"#N 11";
"#L a1  a2  a3  a4  a5  c  b1  b2  b3  b4  b5";
"  1.258489  0.728215  1.119856  2.168133  0.705239  0.019722  10.683769  0.208177  0.836097 24.603704 58.954273  ";
"#S  7  N";
"#N 11";
"#L a1  a2  a3  a4  a5  c  b1  b2  b3  b4  b5";
" 11.893780  3.277479  1.858092  0.858927  0.912985 -11.804902   0.000158 10.232723 30.344690  0.656065  0.217287  ";
"#S  8  O";
"#N 11";
"#L a1  a2  a3  a4  a5  c  b1  b2  b3  b4  b5";
"  2.960427  2.508818  0.637853  0.722838  1.142756  0.027014  14.182259  5.936858  0.112726 34.958481  0.390240  ";
"#S  8  O1-";
"#N 11";
"#L a1  a2  a3  a4  a5  c  b1  b2  b3  b4  b5";
"  3.106934  3.235142  1.148886  0.783981  0.676953  0.046136  19.868080  6.960252  0.170043 65.693512  0.630757  ";
"#S  8  O2-";
"#N 11";
"#L a1  a2  a3  a4  a5  c  b1  b2  b3  b4  b5";
"  3.990247  2.300563  0.607200  1.907882  1.167080  0.025429  16.639956  5.636819  0.108493 47.299709  0.379984  ";
"#S  9  F";
"#N 11";
"#L a1  a2  a3  a4  a5  c  b1  b2  b3  b4  b5";
"  3.511943  2.772244  0.678385  0.915159  1.089261  0.032557  10.687859  4.380466  0.093982 27.255203  0.313066  ";
"#S  9  F1-";
"#N 11";
"#L a1  a2  a3  a4  a5  c  b1  b2  b3  b4  b5";
"  0.457649  3.841561  1.432771  0.801876  3.395041  0.069525   0.917243  5.507803  0.164955 51.076206 15.821679  ";
"#S  10  Ne";
"#N 11";
"#L a1  a2  a3  a4  a5  c  b1  b2  b3  b4  b5";
"  4.183749  2.905726  0.520513  1.135641  1.228065  0.025576   8.175457  3.252536  0.063295 21.813910  0.224952  ";
"#S  11  Na";
"#N 11";
"#L a1  a2  a3  a4  a5  c  b1  b2  b3  b4  b5";
"  4.910127  3.081783  1.262067  1.098938  0.560991  0.079712   3.281434  9.119178  0.102763 132.013947  0.405878  ";
"#S  11  Na1+";
"#N 11";
"#L a1  a2  a3  a4  a5  c  b1  b2  b3  b4  b5";
"  3.148690  4.073989  0.767888  0.995612  0.968249  0.045300   2.594987  6.046925  0.070139 14.122657  0.217037  ";
"#S  12  Mg";
"#N 11";
"#L a1  a2  a3  a4  a5  c  b1  b2  b3  b4  b5";
"  4.708971  1.194814  1.558157  1.170413  3.239403  0.126842   4.875207 108.506081  0.111516 48.292408  1.928171  ";
"#S  12  Mg2+";
"#N 11";
"#L a1  a2  a3  a4  a5  c  b1  b2  b3  b4  b5";
"  3.062918  4.135106  0.853742  1.036792  0.852520  0.058851   2.015803  4.417941  0.065307  9.669710  0.187818  ";
"#S  13  Al";
"#N 11";
"#L a1  a2  a3  a4  a5  c  b1  b2  b3  b4  b5";
"  4.730796  2.313951  1.541980  1.117564  3.154754  0.139509   3.628931 43.051167  0.095960 108.932388  1.555918  ";
"#S  13  Al3+";
"#N 11";
"#L a1  a2  a3  a4  a5  c  b1  b2  b3  b4  b5";
"  4.132015  0.912049  1.102425  0.614876  3.219136  0.019397   3.528641  7.378344  0.133708  0.039065  1.644728  ";
"#S  14  Si";
"#N 11";
"#L a1  a2  a3  a4  a5  c  b1  b2  b3  b4  b5";
"  5.275329  3.191038  1.511514  1.356849  2.519114  0.145073   2.631338 33.730728  0.081119 86.288643  1.170087  ";
"#S  14  Siva";
"#N 11";
"#L a1  a2  a3  a4  a5  c  b1  b2  b3  b4  b5";
"  2.879033  3.072960  1.515981  1.390030  4.995051  0.146030   1.239713 38.706276  0.081481 93.616333  2.770293  ";
"#S  14  Si4+";
"#N 11";
"#L a1  a2  a3  a4  a5  c  b1  b2  b3  b4  b5";
"  3.676722  3.828496  1.258033  0.419024  0.720421  0.097266   1.446851  3.013144  0.064397  0.206254  5.970222  ";
"#S  15  P";
"#N 11";
"#L a1  a2  a3  a4  a5  c  b1  b2  b3  b4  b5";
"  1.950541  4.146930  1.494560  1.522042  5.729711  0.155233   0.908139 27.044952  0.071280 67.520187  1.981173  ";
"#S  16  S";
"#N 11";
"#L a1  a2  a3  a4  a5  c  b1  b2  b3  b4  b5";
"  6.372157  5.154568  1.473732  1.635073  1.209372  0.154722   1.514347 22.092527  0.061373 55.445175  0.646925  ";
"#S  17  Cl";
"#N 11";
"#L a1  a2  a3  a4  a5  c  b1  b2  b3  b4  b5";
"  1.446071  6.870609  6.151801  1.750347  0.634168  0.146773   0.052357  1.193165 18.343416 46.398396  0.401005  ";
"#S  17  Cl1-";
"#N 11";
"#L a1  a2  a3  a4  a5  c  b1  b2  b3  b4  b5";
"  1.061802  7.139886  6.524271  2.355626 35.829403 -34.916603   0.144727  1.171795 19.467655 60.320301  0.000436  ";
"#S  18  Ar";
"#N 11";
"#L a1  a2  a3  a4  a5  c  b1  b2  b3  b4  b5";
"  7.188004  6.638454  0.454180  1.929593  1.523654  0.265954   0.956221 15.339877 15.339862 39.043823  0.062409  ";
"#S  19  K";
"#N 11";
"#L a1  a2  a3  a4  a5  c  b1  b2  b3  b4  b5";
"  8.163991  7.146945  1.070140  0.877316  1.486434  0.253614  12.816323  0.808945 210.327011 39.597652  0.052821  ";
"#S  19  K1+";
"#N 11";
"#L a1  a2  a3  a4  a5  c  b1  b2  b3  b4  b5";
"-17.609339  1.494873  7.150305 10.899569 15.808228  0.257164  18.840979  0.053453  0.812940 22.264105 14.351593  ";
"#S  20  Ca";
"#N 11";
"#L a1  a2  a3  a4  a5  c  b1  b2  b3  b4  b5";
"  8.593655  1.477324  1.436254  1.182839  7.113258  0.196255  10.460644  0.041891 81.390381 169.847839  0.688098  ";
"#S  20  Ca2+";
"#N 11";
"#L a1  a2  a3  a4  a5  c  b1  b2  b3  b4  b5";
"  8.501441 12.880483  9.765095  7.156669  0.711160 -21.013187  10.525848 -0.004033  0.010692  0.684443 27.231771  ";
"#S  21  Sc";
"#N 11";
"#L a1  a2  a3  a4  a5  c  b1  b2  b3  b4  b5";
"  1.476566  1.487278  1.600187  9.177463  7.099750  0.157765  53.131023  0.035325 137.319489  9.098031  0.602102  ";
"#S  21  Sc3+";
"#N 11";
"#L a1  a2  a3  a4  a5  c  b1  b2  b3  b4  b5";
"  7.104348  1.511488 -53.669773 38.404816 24.532240  0.118642   0.601957  0.033386 12.572138 10.859736 14.125230  ";
"#S  22  Ti";
"#N 11";
"#L a1  a2  a3  a4  a5  c  b1  b2  b3  b4  b5";
"  9.818524  1.522646  1.703101  1.768774  7.082555  0.102473   8.001879  0.029763 39.885422 120.157997  0.532405  ";
"#S  22  Ti2+";
"#N 11";
"#L a1  a2  a3  a4  a5  c  b1  b2  b3  b4  b5";
"  7.040119  1.496285  9.657304  0.006534  1.649561  0.150362   0.537072  0.031914  8.009958 201.800293 24.039482  ";
"#S  22  Ti3+";
"#N 11";
"#L a1  a2  a3  a4  a5  c  b1  b2  b3  b4  b5";
" 36.587933  7.230255 -9.086077  2.084594 17.294008 -35.111282   0.000681  0.522262  5.262317 15.881716  6.149805  ";
"#S  22  Ti4+";
"#N 11";
"#L a1  a2  a3  a4  a5  c  b1  b2  b3  b4  b5";
" 45.355537  7.092900  7.483858 -43.498817  1.678915 -0.110628   9.252186  0.523046 13.082852 10.193876  0.023064  ";
"#S  23  V";
"#N 11";
"#L a1  a2  a3  a4  a5  c  b1  b2  b3  b4  b5";
" 10.473575  1.547881  1.986381  1.865616  7.056250  0.067744   7.081940  0.026040 31.909672 108.022842  0.474882  ";
"#S  23  V2+";
"#N 11";
"#L a1  a2  a3  a4  a5  c  b1  b2  b3  b4  b5";
"  7.754356  2.064100  2.576998  2.011404  7.126177 -0.533379   7.066315  0.014993  7.066308 22.055786  0.467568  ";
"#S  23  V3+";
"#N 11";
"#L a1  a2  a3  a4  a5  c  b1  b2  b3  b4  b5";
"  9.958480  1.596350  1.483442 -10.846044 17.332867  0.474921   6.763041  0.056895 17.750029  0.328826  0.388013  ";
"#S  23  V5+";
"#N 11";
"#L a1  a2  a3  a4  a5  c  b1  b2  b3  b4  b5";
" 15.575018  8.448095  1.612040 -9.721855  1.534029  0.552676   0.682708  5.566640 10.527077  0.907961  0.066667  ";
"#S  24  Cr";
"#N 11";
"#L a1  a2  a3  a4  a5  c  b1  b2  b3  b4  b5";
" 11.007069  1.555477  2.985293  1.347855  7.034779  0.065510   6.366281  0.023987 23.244839 105.774498  0.429369  ";
"#S  24  Cr2+";
"#N 11";
"#L a1  a2  a3  a4  a5  c  b1  b2  b3  b4  b5";
" 10.598877  1.565858  2.728280  0.098064  6.959321  0.049870   6.151846  0.023519 17.432816 54.002388  0.426301  ";
"#S  24  Cr3+";
"#N 11";
"#L a1  a2  a3  a4  a5  c  b1  b2  b3  b4  b5";
"  7.989310  1.765079  2.627125  1.829380  6.980908 -0.192123   6.068867  0.018342  6.068887 16.309284  0.420864  ";
"#S  25  Mn";
"#N 11";
"#L a1  a2  a3  a4  a5  c  b1  b2  b3  b4  b5";
" 11.709542  1.733414  2.673141  2.023368  7.003180 -0.147293   5.597120  0.017800 21.788420 89.517914  0.383054  ";
"#S  25  Mn2+";
"#N 11";
"#L a1  a2  a3  a4  a5  c  b1  b2  b3  b4  b5";
" 11.287712 26.042414  3.058096  0.090258  7.088306 -24.566132   5.506225  0.000774 16.158575 54.766354  0.375580  ";
"#S  25  Mn3+";
"#N 11";
"#L a1  a2  a3  a4  a5  c  b1  b2  b3  b4  b5";
"  6.926972  2.081342 11.128379  2.375107 -0.419287 -0.093713   0.378315  0.015054  5.379957 14.429586  0.004939  ";
"#S  25  Mn4+";
"#N 11";
"#L a1  a2  a3  a4  a5  c  b1  b2  b3  b4  b5";
" 12.409131  7.466993  1.809947 -12.138477 10.780248  0.672146   0.300400  0.112814 12.520756  0.168653  5.173237  ";
"#S  26  Fe";
"#N 11";
"#L a1  a2  a3  a4  a5  c  b1  b2  b3  b4  b5";
" 12.311098  1.876623  3.066177  2.070451  6.975185 -0.304931   5.009415  0.014461 18.743040 82.767876  0.346506  ";
"#S  26  Fe2+";
"#N 11";
"#L a1  a2  a3  a4  a5  c  b1  b2  b3  b4  b5";
" 11.776765 11.165097  3.533495  0.165345  7.036932 -9.676919   4.912232  0.001748 14.166556 42.381958  0.341324  ";
"#S  26  Fe3+";
"#N 11";
"#L a1  a2  a3  a4  a5  c  b1  b2  b3  b4  b5";
"  9.721638 63.403847  2.141347  2.629274  7.033846 -61.930725   4.869297  0.000293  4.867602 13.539076  0.338520  ";
"#S  27  Co";
"#N 11";
"#L a1  a2  a3  a4  a5  c  b1  b2  b3  b4  b5";
" 12.914510  2.481908  3.466894  2.106351  6.960892 -0.936572   4.507138  0.009126 16.438129 76.987320  0.314418  ";
"#S  27  Co2+";
"#N 11";
"#L a1  a2  a3  a4  a5  c  b1  b2  b3  b4  b5";
"  6.993840 26.285812 12.254289  0.246114  4.017407 -24.796852   0.310779  0.000684  4.400528 35.741447 12.536393  ";
"#S  27  Co3+";
"#N 11";
"#L a1  a2  a3  a4  a5  c  b1  b2  b3  b4  b5";
"  6.861739  2.678570 12.281889  3.501741 -0.179384 -1.147345   0.309794  0.008142  4.331703 11.914167 11.914167  ";
"#S  28  Ni";
"#N 11";
"#L a1  a2  a3  a4  a5  c  b1  b2  b3  b4  b5";
" 13.521865  6.947285  3.866028  2.135900  4.284731 -2.762697   4.077277  0.286763 14.622634 71.966080  0.004437  ";
"#S  28  Ni2+";
"#N 11";
"#L a1  a2  a3  a4  a5  c  b1  b2  b3  b4  b5";
" 12.519017 37.832058  4.387257  0.661552  6.949072 -36.344471   3.933053  0.000442 10.449184 23.860998  0.283723  ";
"#S  28  Ni3+";
"#N 11";
"#L a1  a2  a3  a4  a5  c  b1  b2  b3  b4  b5";
" 13.579366  1.902844 12.859268  3.811005 -6.838595 -0.317618   0.313140  0.012621  3.906407 10.894311  0.344379  ";
"#S  29  Cu";
"#N 11";
"#L a1  a2  a3  a4  a5  c  b1  b2  b3  b4  b5";
" 14.014192  4.784577  5.056806  1.457971  6.932996 -3.254477   3.738280  0.003744 13.034982 72.554794  0.265666  ";
"#S  29  Cu1+";
"#N 11";
"#L a1  a2  a3  a4  a5  c  b1  b2  b3  b4  b5";
" 12.960763 16.342150  1.110102  5.520682  6.915452 -14.849320   3.576010  0.000975 29.523218 10.114283  0.261326  ";
"#S  29  Cu2+";
"#N 11";
"#L a1  a2  a3  a4  a5  c  b1  b2  b3  b4  b5";
" 11.895569 16.344978  5.799817  1.048804  6.789088 -14.878383   3.378519  0.000924  8.133653 20.526524  0.254741  ";
"#S  30  Zn";
"#N 11";
"#L a1  a2  a3  a4  a5  c  b1  b2  b3  b4  b5";
" 14.741002  6.907748  4.642337  2.191766 38.424042 -36.915829   3.388232  0.243315 11.903689 63.312130  0.000397  ";
"#S  30  Zn2+";
"#N 11";
"#L a1  a2  a3  a4  a5  c  b1  b2  b3  b4  b5";
" 13.340772 10.428857  5.544489  0.762295  6.869172 -8.945248   3.215913  0.001413  8.542680 21.891756  0.239215  ";
"#S  31  Ga";
"#N 11";
"#L a1  a2  a3  a4  a5  c  b1  b2  b3  b4  b5";
" 15.758946  6.841123  4.121016  2.714681  2.395246 -0.847395   3.121754  0.226057 12.482196 66.203621  0.007238  ";
"#S  31  Ga3+";
"#N 11";
"#L a1  a2  a3  a4  a5  c  b1  b2  b3  b4  b5";
" 13.123875 35.288189  6.126979  0.611551  6.724807 -33.875122   2.809960  0.000323  6.831534 16.784311  0.212002  ";
"#S  32  Ge";
"#N 11";
"#L a1  a2  a3  a4  a5  c  b1  b2  b3  b4  b5";
" 16.540613  1.567900  3.727829  3.345098  6.785079  0.018726   2.866618  0.012198 13.432163 58.866047  0.210974  ";
"#S  32  Ge4+";
"#N 11";
"#L a1  a2  a3  a4  a5  c  b1  b2  b3  b4  b5";
"  6.876636  6.779091  9.969591  3.135857  0.152389  1.086542   2.025174  0.176650  3.573822  7.685848 16.677574  ";
"#S  33  As";
"#N 11";
"#L a1  a2  a3  a4  a5  c  b1  b2  b3  b4  b5";
" 17.025642  4.503441  3.715904  3.937200  6.790175 -2.984117   2.597739  0.003012 14.272119 50.437996  0.193015  ";
"#S  34  Se";
"#N 11";
"#L a1  a2  a3  a4  a5  c  b1  b2  b3  b4  b5";
" 17.354071  4.653248  4.259489  4.136455  6.749163 -3.160982   2.349787  0.002550 15.579460 45.181202  0.177432  ";
"#S  35  Br";
"#N 11";
"#L a1  a2  a3  a4  a5  c  b1  b2  b3  b4  b5";
" 17.550570  5.411882  3.937180  3.880645  6.707793 -2.492088   2.119226 16.557184  0.002481 42.164009  0.162121  ";
"#S  35  Br1-";
"#N 11";
"#L a1  a2  a3  a4  a5  c  b1  b2  b3  b4  b5";
" 17.714310  6.466926  6.947385  4.402674 -0.697279  1.152674   2.122554 19.050768  0.152708 58.690361 58.690372  ";
"#S  36  Kr";
"#N 11";
"#L a1  a2  a3  a4  a5  c  b1  b2  b3  b4  b5";
" 17.655279  6.848105  4.171004  3.446760  6.685200 -2.810592   1.908231 16.606236  0.001598 39.917473  0.146896  ";
"#S  37  Rb";
"#N 11";
"#L a1  a2  a3  a4  a5  c  b1  b2  b3  b4  b5";
"  8.123134  2.138042  6.761702  1.156051 17.679546  1.139548  15.142385 33.542667  0.129372 224.132507  1.713368  ";
"#S  37  Rb1+";
"#N 11";
"#L a1  a2  a3  a4  a5  c  b1  b2  b3  b4  b5";
" 17.684320  7.761588  6.680874  2.668883  0.070974  1.133263   1.710209 14.919863  0.128542 31.654478  0.128543  ";
"#S  38  Sr";
"#N 11";
"#L a1  a2  a3  a4  a5  c  b1  b2  b3  b4  b5";
" 17.730219  9.795867  6.099763  2.620025  0.600053  1.140251   1.563060 14.310868  0.120574 135.771317  0.120574  ";
"#S  38  Sr2+";
"#N 11";
"#L a1  a2  a3  a4  a5  c  b1  b2  b3  b4  b5";
" 17.694973  1.275762  6.154252  9.234786  0.515995  1.125309   1.550888 30.133041  0.118774 13.821799  0.118774  ";
"#S  39  Y";
"#N 11";
"#L a1  a2  a3  a4  a5  c  b1  b2  b3  b4  b5";
" 17.792040 10.253252  5.714949  3.170516  0.918251  1.131787   1.429691 13.132816  0.112173 108.197029  0.112173  ";
"#S  40  Zr";
"#N 11";
"#L a1  a2  a3  a4  a5  c  b1  b2  b3  b4  b5";
" 17.859772 10.911038  5.821115  3.512513  0.746965  1.124859   1.310692 12.319285  0.104353 91.777542  0.104353  ";
"#S  40  Zr4+";
"#N 11";
"#L a1  a2  a3  a4  a5  c  b1  b2  b3  b4  b5";
"  6.802956 17.699253 10.650647 -0.248108  0.250338  0.827902   0.096228  1.296127 11.240715 -0.219259 -0.219021  ";
"#S  41  Nb";
"#N 11";
"#L a1  a2  a3  a4  a5  c  b1  b2  b3  b4  b5";
" 17.958399 12.063054  5.007015  3.287667  1.531019  1.123452   1.211590 12.246687  0.098615 75.011948  0.098615  ";
"#S  41  Nb3+";
"#N 11";
"#L a1  a2  a3  a4  a5  c  b1  b2  b3  b4  b5";
" 17.714323  1.675213  7.483963  8.322464 11.143573 -8.339573   1.172419 30.102791  0.080255 -0.002983 10.456687  ";
"#S  41  Nb5+";
"#N 11";
"#L a1  a2  a3  a4  a5  c  b1  b2  b3  b4  b5";
" 17.580206  7.633277 10.793497  0.180884 67.837921 -68.024780   1.165852  0.078558  9.507652 31.621656 -0.000438  ";
"#S  42  Mo";
"#N 11";
"#L a1  a2  a3  a4  a5  c  b1  b2  b3  b4  b5";
"  6.236218 17.987711 12.973127  3.451426  0.210899  1.108770   0.090780  1.108310 11.468720 66.684151  0.090780  ";
"#S  42  Mo3+";
"#N 11";
"#L a1  a2  a3  a4  a5  c  b1  b2  b3  b4  b5";
"  7.447050 17.778122 11.886068  1.997905  1.789626 -1.898764   0.072000  1.073145  9.834720 28.221746 -0.011674  ";
"#S  42  Mo5+";
"#N 11";
"#L a1  a2  a3  a4  a5  c  b1  b2  b3  b4  b5";
"  7.929879 17.667669 11.515987  0.500402 77.444084 -78.056595   0.068856  1.068064  9.046229 26.558945 -0.000473  ";
"#S  42  Mo6+";
"#N 11";
"#L a1  a2  a3  a4  a5  c  b1  b2  b3  b4  b5";
" 34.757683  9.653037  6.584769 -18.628115  2.490594  1.141916   1.301770  7.123843  0.094097  1.617443 12.335434  ";
"#S  43  Tc";
"#N 11";
"#L a1  a2  a3  a4  a5  c  b1  b2  b3  b4  b5";
" 17.840963  3.428236  1.373012 12.947364  6.335469  1.074784   1.005729 41.901382 119.320541  9.781542  0.083391  ";
"#S  44  Ru";
"#N 11";
"#L a1  a2  a3  a4  a5  c  b1  b2  b3  b4  b5";
"  6.271624 17.906738 14.123269  3.746008  0.908235  1.043992   0.077040  0.928222  9.555345 35.860680 123.552246  ";
"#S  44  Ru3+";
"#N 11";
"#L a1  a2  a3  a4  a5  c  b1  b2  b3  b4  b5";
" 17.894758 13.579529 10.729251  2.474095 48.227997 -51.905243   0.902827  8.740579  0.045125 24.764954 -0.001699  ";
"#S  44  Ru4+";
"#N 11";
"#L a1  a2  a3  a4  a5  c  b1  b2  b3  b4  b5";
" 17.845776 13.455084 10.229087  1.653524 14.059795 -17.241762   0.901070  8.482392  0.045972 23.015272 -0.004889  ";
"#S  45  Rh";
"#N 11";
"#L a1  a2  a3  a4  a5  c  b1  b2  b3  b4  b5";
"  6.216648 17.919739  3.854252  0.840326 15.173498  0.995452   0.070789  0.856121 33.889484 121.686691  9.029517  ";
"#S  45  Rh3+";
"#N 11";
"#L a1  a2  a3  a4  a5  c  b1  b2  b3  b4  b5";
" 17.758621 14.569813  5.298320  2.533579  0.879753  0.960843   0.841779  8.319533  0.069050 23.709131  0.069050  ";
"#S  45  Rh4+";
"#N 11";
"#L a1  a2  a3  a4  a5  c  b1  b2  b3  b4  b5";
" 17.716188 14.446654  5.185801  1.703448  0.989992  0.959941   0.840572  8.100647  0.068995 22.357307  0.068995  ";
"#S  46  Pd";
"#N 11";
"#L a1  a2  a3  a4  a5  c  b1  b2  b3  b4  b5";
"  6.121511  4.784063 16.631683  4.318258 13.246773  0.883099   0.062549  0.784031  8.751391 34.489983  0.784031  ";
"#S  46  Pd2+";
"#N 11";
"#L a1  a2  a3  a4  a5  c  b1  b2  b3  b4  b5";
"  6.122282 15.651012  3.513508  9.060790  8.771199  0.879336   0.062424  8.018296 24.784275  0.776457  0.776457  ";
"#S  46  Pd4+";
"#N 11";
"#L a1  a2  a3  a4  a5  c  b1  b2  b3  b4  b5";
"  6.152421 -96.069023 31.622141 81.578255 17.801403  0.915874   0.063951 11.090354 13.466152  9.758302  0.783014  ";
"#S  47  Ag";
"#N 11";
"#L a1  a2  a3  a4  a5  c  b1  b2  b3  b4  b5";
"  6.073874 17.155437  4.173344  0.852238 17.988686  0.756603   0.055333  7.896512 28.443739 110.376106  0.716809  ";
"#S  47  Ag1+";
"#N 11";
"#L a1  a2  a3  a4  a5  c  b1  b2  b3  b4  b5";
"  6.091192  4.019526 16.948174  4.258638 13.889437  0.785127   0.056305  0.719340  7.758938 27.368349  0.719340  ";
"#S  47  Ag2+";
"#N 11";
"#L a1  a2  a3  a4  a5  c  b1  b2  b3  b4  b5";
"  6.401808 48.699802  4.799859 -32.332523 16.356710  1.068247   0.068167  0.942270 20.639496  1.100365  6.883131  ";
"#S  48  Cd";
"#N 11";
"#L a1  a2  a3  a4  a5  c  b1  b2  b3  b4  b5";
"  6.080986 18.019468  4.018197  1.303510 17.974669  0.603504   0.048990  7.273646 29.119284 95.831207  0.661231  ";
"#S  48  Cd2+";
"#N 11";
"#L a1  a2  a3  a4  a5  c  b1  b2  b3  b4  b5";
"  6.093711 43.909691 17.041306 -39.675117 17.958918  0.664795   0.050624  8.654143 15.621396 11.082067  0.667591  ";
"#S  49  In";
"#N 11";
"#L a1  a2  a3  a4  a5  c  b1  b2  b3  b4  b5";
"  6.196477 18.816183  4.050479  1.638929 17.962912  0.333097   0.042072  6.695665 31.009790 103.284348  0.610714  ";
"#S  49  In3+";
"#N 11";
"#L a1  a2  a3  a4  a5  c  b1  b2  b3  b4  b5";
"  6.206277 18.497746  3.078131 10.524613  7.401234  0.293677   0.041357  6.605563 18.792250  0.608082  0.608082  ";
"#S  50  Sn";
"#N 11";
"#L a1  a2  a3  a4  a5  c  b1  b2  b3  b4  b5";
" 19.325171  6.281571  4.498866  1.856934 17.917318  0.119024   6.118104  0.036915 32.529045 95.037186  0.565651  ";
"#S  50  Sn2+";
"#N 11";
"#L a1  a2  a3  a4  a5  c  b1  b2  b3  b4  b5";
"  6.353672  4.770377 14.672025  4.235959 18.002131 -0.042519   0.034720  6.167891  6.167879 29.006456  0.561774  ";
"#S  50  Sn4+";
"#N 11";
"#L a1  a2  a3  a4  a5  c  b1  b2  b3  b4  b5";
" 15.445732  6.420892  4.562980  1.713385 18.033537 -0.172219   6.280898  0.033144  6.280899 17.983601  0.557980  ";
"#S  51  Sb";
"#N 11";
"#L a1  a2  a3  a4  a5  c  b1  b2  b3  b4  b5";
"  5.394956  6.549570 19.650681  1.827820 17.867832 -0.290506  33.326523  0.030974  5.564929 87.130966  0.523992  ";
"#S  51  Sb3+";
"#N 11";
"#L a1  a2  a3  a4  a5  c  b1  b2  b3  b4  b5";
" 10.189171 57.461918 19.356573  4.862206 -45.394096  1.516108   0.089485  0.375256  5.357987 22.153736  0.297768  ";
"#S  51  Sb5+";
"#N 11";
"#L a1  a2  a3  a4  a5  c  b1  b2  b3  b4  b5";
" 17.920622  6.647932 12.724075  1.555545  7.600591 -0.445371   0.522315  0.029487  5.718210 16.433775  5.718204  ";
"#S  52  Te";
"#N 11";
"#L a1  a2  a3  a4  a5  c  b1  b2  b3  b4  b5";
"  6.660302  6.940756 19.847015  1.557175 17.802427 -0.806668  33.031654  0.025750  5.065547 84.101616  0.487660  ";
"#S  53  I";
"#N 11";
"#L a1  a2  a3  a4  a5  c  b1  b2  b3  b4  b5";
" 19.884502  6.736593  8.110516  1.170953 17.548716 -0.448811   4.628591  0.027754 31.849096 84.406387  0.463550  ";
"#S  53  I1-";
"#N 11";
"#L a1  a2  a3  a4  a5  c  b1  b2  b3  b4  b5";
" 20.010330 17.835524  8.104130  2.231118  9.158548 -3.341004   4.565931  0.444266 32.430672 95.149040  0.014906  ";
"#S  54  Xe";
"#N 11";
"#L a1  a2  a3  a4  a5  c  b1  b2  b3  b4  b5";
" 19.978920 11.774945  9.332182  1.244749 17.737501 -6.065902   4.143356  0.010142 28.796200 75.280685  0.413616  ";
"#S  55  Cs";
"#N 11";
"#L a1  a2  a3  a4  a5  c  b1  b2  b3  b4  b5";
" 17.418674  8.314444 10.323193  1.383834 19.876251 -2.322802   0.399828  0.016872 25.605827 233.339676  3.826915  ";
"#S  55  Cs1+";
"#N 11";
"#L a1  a2  a3  a4  a5  c  b1  b2  b3  b4  b5";
" 19.939056 24.967621 10.375884  0.454243 17.660248 -19.394306   3.770511  0.004040 25.311275 76.537766  0.384730  ";
"#S  56  Ba";
"#N 11";
"#L a1  a2  a3  a4  a5  c  b1  b2  b3  b4  b5";
" 19.747343 17.368477 10.465718  2.592602 11.003653 -5.183497   3.481823  0.371224 21.226641 173.834274  0.010719  ";
"#S  56  Ba2+";
"#N 11";
"#L a1  a2  a3  a4  a5  c  b1  b2  b3  b4  b5";
" 19.750200 17.513683 10.884892  0.321585 65.149834 -59.618172   3.430748  0.361590 21.358307 70.309402  0.001418  ";
"#S  57  La";
"#N 11";
"#L a1  a2  a3  a4  a5  c  b1  b2  b3  b4  b5";
" 19.966019 27.329655 11.018425  3.086696 17.335455 -21.745489   3.197408  0.003446 19.955492 141.381973  0.341817  ";
"#S  57  La3+";
"#N 11";
"#L a1  a2  a3  a4  a5  c  b1  b2  b3  b4  b5";
" 19.688887 17.345703 11.356296  0.099418 82.358124 -76.846909   3.146211  0.339586 18.753832 90.345459  0.001072  ";
"#S  58  Ce";
"#N 11";
"#L a1  a2  a3  a4  a5  c  b1  b2  b3  b4  b5";
" 17.355122 43.988499 20.546650  3.130670 11.353665 -38.386017   0.328369  0.002047  3.088196 134.907654 18.832960  ";
"#S  58  Ce3+";
"#N 11";
"#L a1  a2  a3  a4  a5  c  b1  b2  b3  b4  b5";
" 26.593231 85.866432 -6.677695 12.111847 17.401903 -80.313423   3.280381  0.001012  4.313575 17.868504  0.326962  ";
"#S  58  Ce4+";
"#N 11";
"#L a1  a2  a3  a4  a5  c  b1  b2  b3  b4  b5";
" 17.457533 25.659941 11.691037 19.695251 -16.994749 -3.515096   0.311812 -0.003793 16.568687  2.886395 -0.008931  ";
"#S  59  Pr";
"#N 11";
"#L a1  a2  a3  a4  a5  c  b1  b2  b3  b4  b5";
" 21.551311 17.161730 11.903859  2.679103  9.564197 -3.871068   2.995675  0.312491 17.716705 152.192825  0.010468  ";
"#S  59  Pr3+";
"#N 11";
"#L a1  a2  a3  a4  a5  c  b1  b2  b3  b4  b5";
" 20.879841 36.035797 12.135341  0.283103 17.167803 -30.500784   2.870897  0.002364 16.615236 53.909359  0.306993  ";
"#S  59  Pr4+";
"#N 11";
"#L a1  a2  a3  a4  a5  c  b1  b2  b3  b4  b5";
" 17.496082 21.538509 20.403114 12.062211 -7.492043 -9.016722   0.294457 -0.002742  2.772886 15.804613 -0.013556  ";
"#S  60  Nd";
"#N 11";
"#L a1  a2  a3  a4  a5  c  b1  b2  b3  b4  b5";
" 17.331244 62.783924 12.160097  2.663483 22.239950 -57.189842   0.300269  0.001320 17.026001 148.748993  2.910268  ";
"#S  60  Nd3+";
"#N 11";
"#L a1  a2  a3  a4  a5  c  b1  b2  b3  b4  b5";
" 17.120077 56.038139 21.468307 10.000671  2.905866 -50.541992   0.291295  0.001421  2.743681 14.581367 22.485098  ";
"#S  61  Pm";
"#N 11";
"#L a1  a2  a3  a4  a5  c  b1  b2  b3  b4  b5";
" 17.286388 51.560162 12.478557  2.675515 22.960947 -45.973682   0.286620  0.001550 16.223755 143.984512  2.796480  ";
"#S  61  Pm3+";
"#N 11";
"#L a1  a2  a3  a4  a5  c  b1  b2  b3  b4  b5";
" 22.221066 17.068142 12.805423  0.435687 52.238770 -46.767181   2.635767  0.277039 14.927315 45.768017  0.001455  ";
"#S  62  Sm";
"#N 11";
"#L a1  a2  a3  a4  a5  c  b1  b2  b3  b4  b5";
" 23.700363 23.072214 12.777782  2.684217 17.204367 -17.452166   2.689539  0.003491 15.495437 139.862473  0.274536  ";
"#S  62  Sm3+";
"#N 11";
"#L a1  a2  a3  a4  a5  c  b1  b2  b3  b4  b5";
" 15.618565 19.538092 13.398946 -4.358811 24.490461 -9.714854   0.006001  0.306379 14.979594  0.748825  2.454492  ";
"#S  63  Eu";
"#N 11";
"#L a1  a2  a3  a4  a5  c  b1  b2  b3  b4  b5";
" 17.186195 37.156837 13.103387  2.707246 24.419271 -31.586687   0.261678  0.001995 14.787360 134.816299  2.581883  ";
"#S  63  Eu2+";
"#N 11";
"#L a1  a2  a3  a4  a5  c  b1  b2  b3  b4  b5";
" 23.899035 31.657497 12.955752  1.700576 16.992199 -26.204315   2.467332  0.002230 13.625002 35.089481  0.253136  ";
"#S  63  Eu3+";
"#N 11";
"#L a1  a2  a3  a4  a5  c  b1  b2  b3  b4  b5";
" 17.758327 33.498665 24.067188 13.436883 -9.019134 -19.768026   0.244474 -0.003901  2.487526 14.568011 -0.015628  ";
"#S  64  Gd";
"#N 11";
"#L a1  a2  a3  a4  a5  c  b1  b2  b3  b4  b5";
" 24.898117 17.104952 13.222581  3.266152 48.995213 -43.505684   2.435028  0.246961 13.996325 110.863091  0.001383  ";
"#S  64  Gd3+";
"#N 11";
"#L a1  a2  a3  a4  a5  c  b1  b2  b3  b4  b5";
" 24.344999 16.945311 13.866931  0.481674 93.506378 -88.147179   2.333971  0.239215 12.982995 43.876347  0.000673  ";
"#S  65  Tb";
"#N 11";
"#L a1  a2  a3  a4  a5  c  b1  b2  b3  b4  b5";
" 25.910013 32.344139 13.765117  2.751404 17.064405 -26.851971   2.373912  0.002034 13.481969 125.836510  0.236916  ";
"#S  65  Tb3+";
"#N 11";
"#L a1  a2  a3  a4  a5  c  b1  b2  b3  b4  b5";
" 24.878252 16.856016 13.663937  1.279671 39.271294 -33.950317   2.223301  0.227290 11.812528 29.910065  0.001527  ";
"#S  66  Dy";
"#N 11";
"#L a1  a2  a3  a4  a5  c  b1  b2  b3  b4  b5";
" 26.671785 88.687576 14.065445  2.768497 17.067781 -83.279831   2.282593  0.000665 12.920230 121.937187  0.225531  ";
"#S  66  Dy3+";
"#N 11";
"#L a1  a2  a3  a4  a5  c  b1  b2  b3  b4  b5";
" 16.864344 90.383461 13.675473  1.687078 25.540651 -85.150650   0.216275  0.000593 11.121207 26.250975  2.135930  ";
"#S  67  Ho";
"#N 11";
"#L a1  a2  a3  a4  a5  c  b1  b2  b3  b4  b5";
" 27.150190 16.999819 14.059334  3.386979 46.546471 -41.165253   2.169660  0.215414 12.213148 100.506783  0.001211  ";
"#S  67  Ho3+";
"#N 11";
"#L a1  a2  a3  a4  a5  c  b1  b2  b3  b4  b5";
" 16.837524 63.221336 13.703766  2.061602 26.202621 -58.026505   0.206873  0.000796 10.500283 24.031883  2.055060  ";
"#S  68  Er";
"#N 11";
"#L a1  a2  a3  a4  a5  c  b1  b2  b3  b4  b5";
" 28.174887 82.493271 14.624002  2.802756 17.018515 -77.135223   2.120995  0.000640 11.915256 114.529938  0.207519  ";
"#S  68  Er3+";
"#N 11";
"#L a1  a2  a3  a4  a5  c  b1  b2  b3  b4  b5";
" 16.810127 22.681061 13.864114  2.294506 26.864477 -17.513460   0.198293  0.002126  9.973341 22.836388  1.979442  ";
"#S  69  Tm";
"#N 11";
"#L a1  a2  a3  a4  a5  c  b1  b2  b3  b4  b5";
" 28.925894 76.173798 14.904704  2.814812 16.998117 -70.839813   2.046203  0.000656 11.465375 111.411980  0.199376  ";
"#S  69  Tm3+";
"#N 11";
"#L a1  a2  a3  a4  a5  c  b1  b2  b3  b4  b5";
" 16.787500 15.350905 14.182357  2.299111 27.573771 -10.192087   0.190852  0.003036  9.602934 22.526880  1.912862  ";
"#S  70  Yb";
"#N 11";
"#L a1  a2  a3  a4  a5  c  b1  b2  b3  b4  b5";
" 29.676760 65.624069 15.160854  2.830288 16.997850 -60.313812   1.977630  0.000720 11.044622 108.139153  0.192110  ";
"#S  70  Yb2+";
"#N 11";
"#L a1  a2  a3  a4  a5  c  b1  b2  b3  b4  b5";
" 28.443794 16.849527 14.165081  3.445311 28.308853 -23.214935   1.863896  0.183811  9.225469 23.691355  0.001463  ";
"#S  70  Yb3+";
"#N 11";
"#L a1  a2  a3  a4  a5  c  b1  b2  b3  b4  b5";
" 28.191629 16.828087 14.167848  2.744962 23.171774 -18.103676   1.842889  0.182788  9.045957 20.799847  0.001759  ";
"#S  71  Lu";
"#N 11";
"#L a1  a2  a3  a4  a5  c  b1  b2  b3  b4  b5";
" 30.122866 15.099346 56.314899  3.540980 16.943729 -51.049416   1.883090 10.342764  0.000780 89.559250  0.183849  ";
"#S  71  Lu3+";
"#N 11";
"#L a1  a2  a3  a4  a5  c  b1  b2  b3  b4  b5";
" 28.828693 16.823227 14.247617  3.079559 25.647667 -20.626528   1.776641  0.175560  8.575531 19.693701  0.001453  ";
"#S  72  Hf";
"#N 11";
"#L a1  a2  a3  a4  a5  c  b1  b2  b3  b4  b5";
" 30.617033 15.145351 54.933548  4.096253 16.896156 -49.719837   1.795613  9.934469  0.000739 76.189705  0.175914  ";
"#S  72  Hf4+";
"#N 11";
"#L a1  a2  a3  a4  a5  c  b1  b2  b3  b4  b5";
" 29.267378 16.792543 14.785310  2.184128 23.791996 -18.820383   1.697911  0.168313  8.190025 18.277578  0.001431  ";
"#S  73  Ta";
"#N 11";
"#L a1  a2  a3  a4  a5  c  b1  b2  b3  b4  b5";
" 31.066359 15.341823 49.278297  4.577665 16.828321 -44.119026   1.708732  9.618455  0.000760 66.346199  0.168002  ";
"#S  73  Ta5+";
"#N 11";
"#L a1  a2  a3  a4  a5  c  b1  b2  b3  b4  b5";
" 29.539469 16.741854 15.182070  1.642916 16.437447 -11.542459   1.612934  0.160460  7.654408 17.070732  0.001858  ";
"#S  74  W";
"#N 11";
"#L a1  a2  a3  a4  a5  c  b1  b2  b3  b4  b5";
" 31.507900 15.682498 37.960129  4.885509 16.792112 -32.864574   1.629485  9.446448  0.000898 59.980675  0.160798  ";
"#S  74  W6+";
"#N 11";
"#L a1  a2  a3  a4  a5  c  b1  b2  b3  b4  b5";
" 29.729357 17.247808 15.184488  1.154652  0.739335  3.945157   1.501648  0.140803  6.880573 14.299601 14.299618  ";
"#S  75  Re";
"#N 11";
"#L a1  a2  a3  a4  a5  c  b1  b2  b3  b4  b5";
" 31.888456 16.117104 42.390297  5.211669 16.767591 -37.412682   1.549238  9.233474  0.000689 54.516373  0.152815  ";
"#S  76  Os";
"#N 11";
"#L a1  a2  a3  a4  a5  c  b1  b2  b3  b4  b5";
" 32.210297 16.678440 48.559906  5.455839 16.735533 -43.677956   1.473531  9.049695  0.000519 50.210201  0.145771  ";
"#S  76  Os4+";
"#N 11";
"#L a1  a2  a3  a4  a5  c  b1  b2  b3  b4  b5";
" 17.113485 15.792370 23.342392  4.090271  7.671292  3.988390   0.131850  7.288542  1.389307 19.629425  1.389307  ";
"#S  77  Ir";
"#N 11";
"#L a1  a2  a3  a4  a5  c  b1  b2  b3  b4  b5";
" 32.004436  1.975454 17.070105 15.939454  5.990003  4.018893   1.353767 81.014175  0.128093  7.661196 26.659403  ";
"#S  77  Ir3+";
"#N 11";
"#L a1  a2  a3  a4  a5  c  b1  b2  b3  b4  b5";
" 31.537575 16.363338 15.597141  5.051404  1.436935  4.009459   1.334144  7.451918  0.127514 21.705648  0.127515  ";
"#S  77  Ir4+";
"#N 11";
"#L a1  a2  a3  a4  a5  c  b1  b2  b3  b4  b5";
" 30.391249 16.146996 17.019068  4.458904  0.975372  4.006865   1.328519  7.181766  0.127337 19.060146  1.328519  ";
"#S  78  Pt";
"#N 11";
"#L a1  a2  a3  a4  a5  c  b1  b2  b3  b4  b5";
" 31.273891 18.445440 17.063745  5.555933  1.575270  4.050394   1.316992  8.797154  0.124741 40.177994  1.316997  ";
"#S  78  Pt2+";
"#N 11";
"#L a1  a2  a3  a4  a5  c  b1  b2  b3  b4  b5";
" 31.986849 17.249048 15.269374  5.760234  1.694079  4.032512   1.281143  7.625512  0.123571 24.190826  0.123571  ";
"#S  78  Pt4+";
"#N 11";
"#L a1  a2  a3  a4  a5  c  b1  b2  b3  b4  b5";
" 41.932713 16.339224 17.653894  6.012420 -12.036877  4.094551   1.111409  6.466086  0.128917 16.954155  0.778721  ";
"#S  79  Au";
"#N 11";
"#L a1  a2  a3  a4  a5  c  b1  b2  b3  b4  b5";
" 16.777390 19.317156 32.979683  5.595453 10.576854 -6.279078   0.122737  8.621570  1.256902 38.008820  0.000601  ";
"#S  79  Au1+";
"#N 11";
"#L a1  a2  a3  a4  a5  c  b1  b2  b3  b4  b5";
" 32.124306 16.716476 16.814100  7.311565  0.993064  4.040792   1.216073  7.165378  0.118715 20.442486 53.095985  ";
"#S  79  Au3+";
"#N 11";
"#L a1  a2  a3  a4  a5  c  b1  b2  b3  b4  b5";
" 31.704271 17.545767 16.819551  5.522640  0.361725  4.042679   1.215561  7.220506  0.118812 20.050970  1.215562  ";
"#S  80  Hg";
"#N 11";
"#L a1  a2  a3  a4  a5  c  b1  b2  b3  b4  b5";
" 16.839890 20.023823 28.428564  5.881564  4.714706  4.076478   0.115905  8.256927  1.195250 39.247227  1.195250  ";
"#S  80  Hg1+";
"#N 11";
"#L a1  a2  a3  a4  a5  c  b1  b2  b3  b4  b5";
" 28.866837 19.277540 16.776051  6.281459  3.710289  4.068430   1.173967  7.583842  0.115351 29.055994  1.173968  ";
"#S  80  Hg2+";
"#N 11";
"#L a1  a2  a3  a4  a5  c  b1  b2  b3  b4  b5";
" 32.411079 18.690371 16.711773  9.974835 -3.847611  4.052869   1.162980  7.329806  0.114518 22.009489 22.009493  ";
"#S  81  Tl";
"#N 11";
"#L a1  a2  a3  a4  a5  c  b1  b2  b3  b4  b5";
" 16.630795 19.386616 32.808571  1.747191  6.356862  4.066939   0.110704  7.181401  1.119730 90.660263 26.014978  ";
"#S  81  Tl1+";
"#N 11";
"#L a1  a2  a3  a4  a5  c  b1  b2  b3  b4  b5";
" 32.295044 16.570049 17.991013  1.535355  7.554591  4.054030   1.101544  0.110020  6.528559 52.495068 20.338634  ";
"#S  81  Tl3+";
"#N 11";
"#L a1  a2  a3  a4  a5  c  b1  b2  b3  b4  b5";
" 32.525639 19.139185 17.100321  5.891115 12.599463 -9.256075   1.094966  6.900992  0.103667 18.489614 -0.001401  ";
"#S  82  Pb";
"#N 11";
"#L a1  a2  a3  a4  a5  c  b1  b2  b3  b4  b5";
" 16.419567 32.738590  6.530247  2.342742 19.916475  4.049824   0.105499  1.055049 25.025890 80.906593  6.664449  ";
"#S  82  Pb2+";
"#N 11";
"#L a1  a2  a3  a4  a5  c  b1  b2  b3  b4  b5";
" 27.392647 16.496822 19.984501  6.813923  5.233910  4.065623   1.058874  0.106305  6.708123 24.395554  1.058874  ";
"#S  82  Pb4+";
"#N 11";
"#L a1  a2  a3  a4  a5  c  b1  b2  b3  b4  b5";
" 32.505657 20.014240 14.645661  5.029499  1.760138  4.044678   1.047035  6.670321  0.105279 16.525040  0.105279  ";
"#S  83  Bi";
"#N 11";
"#L a1  a2  a3  a4  a5  c  b1  b2  b3  b4  b5";
" 16.282274 32.725136  6.678302  2.694750 20.576559  4.040914   0.101180  1.002287 25.714146 77.057549  6.291882  ";
"#S  83  Bi3+";
"#N 11";
"#L a1  a2  a3  a4  a5  c  b1  b2  b3  b4  b5";
" 32.461437 19.438683 16.302486  7.322662  0.431704  4.043703   0.997930  6.038867  0.101338 18.371586 46.361046  ";
"#S  83  Bi5+";
"#N 11";
"#L a1  a2  a3  a4  a5  c  b1  b2  b3  b4  b5";
" 16.734028 20.580494  9.452623 61.155834 -34.041023  4.113663   0.105076  4.773282 11.762162  1.211775  1.619408  ";
"#S  84  Po";
"#N 11";
"#L a1  a2  a3  a4  a5  c  b1  b2  b3  b4  b5";
" 16.289164 32.807171 21.095163  2.505901  7.254589  4.046556   0.098121  0.966265  6.046622 76.598068 28.096128  ";
"#S  85  At";
"#N 11";
"#L a1  a2  a3  a4  a5  c  b1  b2  b3  b4  b5";
" 16.011461 32.615547  8.113899  2.884082 21.377867  3.995684   0.092639  0.904416 26.543257 68.372963  5.499512  ";
"#S  86  Rn";
"#N 11";
"#L a1  a2  a3  a4  a5  c  b1  b2  b3  b4  b5";
" 16.070229 32.641106 21.489658  2.299218  9.480184  4.020977   0.090437  0.876409  5.239687 69.188477 27.632641  ";
"#S  87  Fr";
"#N 11";
"#L a1  a2  a3  a4  a5  c  b1  b2  b3  b4  b5";
" 16.007385 32.663830 21.594351  1.598497 11.121192  4.003472   0.087031  0.840187  4.954467 199.805801 26.905106  ";
"#S  88  Ra";
"#N 11";
"#L a1  a2  a3  a4  a5  c  b1  b2  b3  b4  b5";
" 32.563690 21.396671 11.298093  2.834688 15.914965  3.981773   0.801980  4.590666 22.758972 160.404388  0.083544  ";
"#S  88  Ra2+";
"#N 11";
"#L a1  a2  a3  a4  a5  c  b1  b2  b3  b4  b5";
"  4.986228 32.474945 21.947443 11.800013 10.807292  3.956572   0.082597  0.791468  4.608034 24.792431  0.082597  ";
"#S  89  Ac";
"#N 11";
"#L a1  a2  a3  a4  a5  c  b1  b2  b3  b4  b5";
" 15.914053 32.535042 21.553976 11.433394  3.612409  3.939212   0.080511  0.770669  4.352206 21.381622 130.500748  ";
"#S  89  Ac3+";
"#N 11";
"#L a1  a2  a3  a4  a5  c  b1  b2  b3  b4  b5";
" 15.584983 32.022125 21.456327  0.757593 12.341252  3.838984   0.077438  0.739963  4.040735 47.525002 19.406845  ";
"#S  90  Th";
"#N 11";
"#L a1  a2  a3  a4  a5  c  b1  b2  b3  b4  b5";
" 15.784024 32.454899 21.849222  4.239077 11.736191  3.922533   0.077067  0.735137  4.097976 109.464111 20.512138  ";
"#S  90  Th4+";
"#N 11";
"#L a1  a2  a3  a4  a5  c  b1  b2  b3  b4  b5";
" 15.515445 32.090691 13.996399 12.918157  7.635514  3.831122   0.074499  0.711663  3.871044 18.596891  3.871044  ";
"#S  91  Pa";
"#N 11";
"#L a1  a2  a3  a4  a5  c  b1  b2  b3  b4  b5";
" 32.740208 21.973675 12.957398  3.683832 15.744058  3.886066   0.709545  4.050881 19.231543 117.255005  0.074040  ";
"#S  92  U";
"#N 11";
"#L a1  a2  a3  a4  a5  c  b1  b2  b3  b4  b5";
" 15.679275 32.824306 13.660459  3.687261 22.279434  3.854444   0.071206  0.681177 18.236156 112.500038  3.930325  ";
"#S  92  U3+";
"#N 11";
"#L a1  a2  a3  a4  a5  c  b1  b2  b3  b4  b5";
" 15.360309 32.395657 21.961290  1.325894 14.251453  3.706622   0.067815  0.654643  3.643409 39.604965 16.330570  ";
"#S  92  U4+";
"#N 11";
"#L a1  a2  a3  a4  a5  c  b1  b2  b3  b4  b5";
" 15.355091 32.235306  0.557745 14.396367 21.751173  3.705863   0.067789  0.652613 42.354237 15.908239  3.553231  ";
"#S  92  U6+";
"#N 11";
"#L a1  a2  a3  a4  a5  c  b1  b2  b3  b4  b5";
" 15.333844 31.770849 21.274414 13.872636  0.048519  3.700591   0.067644  0.646384  3.317894 14.650250 75.339699  ";
"#S  93  Np";
"#N 11";
"#L a1  a2  a3  a4  a5  c  b1  b2  b3  b4  b5";
" 32.999901 22.638077 14.219973  3.672950 15.683245  3.769391   0.657086  3.854918 17.435474 109.464485  0.068033  ";
"#S  93  Np3+";
"#N 11";
"#L a1  a2  a3  a4  a5  c  b1  b2  b3  b4  b5";
" 15.378152 32.572132 22.206125  1.413295 14.828381  3.603370   0.064613  0.631420  3.561936 37.875511 15.546129  ";
"#S  93  Np4+";
"#N 11";
"#L a1  a2  a3  a4  a5  c  b1  b2  b3  b4  b5";
" 15.373926 32.423019 21.969994  0.662078 14.969350  3.603039   0.064597  0.629658  3.476389 39.438942 15.135764  ";
"#S  93  Np6+";
"#N 11";
"#L a1  a2  a3  a4  a5  c  b1  b2  b3  b4  b5";
" 15.359986 31.992825 21.412458  0.066574 14.568174  3.600942   0.064528  0.624505  3.253441 67.658318 13.980832  ";
"#S  94  Pu";
"#N 11";
"#L a1  a2  a3  a4  a5  c  b1  b2  b3  b4  b5";
" 33.281178 23.148544 15.153755  3.031492 15.704215  3.664200   0.634999  3.856168 16.849735 121.292038  0.064857  ";
"#S  94  Pu3+";
"#N 11";
"#L a1  a2  a3  a4  a5  c  b1  b2  b3  b4  b5";
" 15.356004 32.769127 22.680210  1.351055 15.416232  3.428895   0.060590  0.604663  3.491509 37.260635 14.981921  ";
"#S  94  Pu4+";
"#N 11";
"#L a1  a2  a3  a4  a5  c  b1  b2  b3  b4  b5";
" 15.416219 32.610569 22.256662  0.719495 15.518152  3.480408   0.061456  0.607938  3.411848 37.628792 14.464360  ";
"#S  94  Pu6+";
"#N 11";
"#L a1  a2  a3  a4  a5  c  b1  b2  b3  b4  b5";
" 15.436506 32.289719 14.726737 15.012391  7.024677  3.502325   0.061815  0.606541  3.245363 13.616438  3.245364  ";
"#S  95  Am";
"#N 11";
"#L a1  a2  a3  a4  a5  c  b1  b2  b3  b4  b5";
" 33.435162 23.657259 15.576339  3.027023 15.746100  3.541160   0.612785  3.792942 16.195778 117.757004  0.061755  ";
"#S  96  Cm";
"#N 11";
"#L a1  a2  a3  a4  a5  c  b1  b2  b3  b4  b5";
" 15.804837 33.480801 24.150198  3.655563 15.499866  3.390840   0.058619  0.590160  3.674720 100.736191 15.408296  ";
"#S  97  Bk";
"#N 11";
"#L a1  a2  a3  a4  a5  c  b1  b2  b3  b4  b5";
" 15.889072 33.625286 24.710381  3.707139 15.839268  3.213169   0.055503  0.569571  3.615472 97.694786 14.754303  ";
"#S  98  Cf";
"#N 11";
"#L a1  a2  a3  a4  a5  c  b1  b2  b3  b4  b5";
" 33.794075 25.467693 16.048487  3.657525 16.008982  3.005326   0.550447  3.581973 14.357388 96.064972  0.052450  "]%string.
(** symbol and the eleven numbers; src/runtime/f0_WaasKirf.dat *)
Definition shipped_formulas : list (string * list string) := [
("H", ["0.413048"; "0.294953"; "0.187491"; "0.080701"; "0.023736"; "0.000049"; "15.569946"; "32.398468"; "5.711404"; "61.889874"; "1.334118"]);
("H1-", ["0.702260"; "0.763666"; "0.248678"; "0.261323"; "0.023017"; "0.000425"; "23.945604"; "74.897919"; "6.773289"; "233.583450"; "1.337531"]);
("He", ["0.732354"; "0.753896"; "0.283819"; "0.190003"; "0.039139"; "0.000487"; "11.553918"; "4.595831"; "1.546299"; "26.463964"; "0.377523"]);
("Li", ["0.974637"; "0.158472"; "0.811855"; "0.262416"; "0.790108"; "0.002542"; "4.334946"; "0.342451"; "97.102966"; "201.363831"; "1.409234"]);
("Li1+", ["0.432724"; "0.549257"; "0.376575"; "-0.336481"; "0.976060"; "0.001764"; "0.260367"; "1.042836"; "7.885294"; "0.260368"; "3.042539"]);
("Be", ["1.533712"; "0.638283"; "0.601052"; "0.106139"; "1.118414"; "0.002511"; "42.662079"; "0.595420"; "99.106499"; "0.151340"; "1.843093"]);
("Be2+", ["3.055430"; "-2.372617"; "1.044914"; "0.544233"; "0.381737"; "-0.653773"; "0.001226"; "0.001227"; "1.542106"; "0.456279"; "4.047479"]);
("B", ["2.085185"; "1.064580"; "1.062788"; "0.140515"; "0.641784"; "0.003823"; "23.494068"; "1.137894"; "61.238976"; "0.114886"; "0.399036"]);
("C", ["2.657506"; "1.078079"; "1.490909"; "-4.241070"; "0.713791"; "4.297983"; "14.780758"; "0.776775"; "42.086842"; "-0.000294"; "0.239535"]);
("Cval", ["1.258489"; "0.728215"; "1.119856"; "2.168133"; "0.705239"; "0.019722"; "10.683769"; "0.208177"; "0.836097"; "24.603704"; "58.954273"]);
("N", ["11.893780"; "3.277479"; "1.858092"; "0.858927"; "0.912985"; "-11.804902"; "0.000158"; "10.232723"; "30.344690"; "0.656065"; "0.217287"]);
("O", ["2.960427"; "2.508818"; "0.637853"; "0.722838"; "1.142756"; "0.027014"; "14.182259"; "5.936858"; "0.112726"; "34.958481"; "0.390240"]);
("O1-", ["3.106934"; "3.235142"; "1.148886"; "0.783981"; "0.676953"; "0.046136"; "19.868080"; "6.960252"; "0.170043"; "65.693512"; "0.630757"]);
("O2-", ["3.990247"; "2.300563"; "0.607200"; "1.907882"; "1.167080"; "0.025429"; "16.639956"; "5.636819"; "0.108493"; "47.299709"; "0.379984"]);
("F", ["3.511943"; "2.772244"; "0.678385"; "0.915159"; "1.089261"; "0.032557"; "10.687859"; "4.380466"; "0.093982"; "27.255203"; "0.313066"]);
("F1-", ["0.457649"; "3.841561"; "1.432771"; "0.801876"; "3.395041"; "0.069525"; "0.917243"; "5.507803"; "0.164955"; "51.076206"; "15.821679"]);
("Ne", ["4.183749"; "2.905726"; "0.520513"; "1.135641"; "1.228065"; "0.025576"; "8.175457"; "3.252536"; "0.063295"; "21.813910"; "0.224952"]);
("Na", ["4.910127"; "3.081783"; "1.262067"; "1.098938"; "0.560991"; "0.079712"; "3.281434"; "9.119178"; "0.102763"; "132.013947"; "0.405878"]);
("Na1+", ["3.148690"; "4.073989"; "0.767888"; "0.995612"; "0.968249"; "0.045300"; "2.594987"; "6.046925"; "0.070139"; "14.122657"; "0.217037"]);
("Mg", ["4.708971"; "1.194814"; "1.558157"; "1.170413"; "3.239403"; "0.126842"; "4.875207"; "108.506081"; "0.111516"; "48.292408"; "1.928171"]);
("Mg2+", ["3.062918"; "4.135106"; "0.853742"; "1.036792"; "0.852520"; "0.058851"; "2.015803"; "4.417941"; "0.065307"; "9.669710"; "0.187818"]);
("Al", ["4.730796"; "2.313951"; "1.541980"; "1.117564"; "3.154754"; "0.139509"; "3.628931"; "43.051167"; "0.095960"; "108.932388"; "1.555918"]);
("Al3+", ["4.132015"; "0.912049"; "1.102425"; "0.614876"; "3.219136"; "0.019397"; "3.528641"; "7.378344"; "0.133708"; "0.039065"; "1.644728"]);
("Si", ["5.275329"; "3.191038"; "1.511514"; "1.356849"; "2.519114"; "0.145073"; "2.631338"; "33.730728"; "0.081119"; "86.288643"; "1.170087"]);
("Siva", ["2.879033"; "3.072960"; "1.515981"; "1.390030"; "4.995051"; "0.146030"; "1.239713"; "38.706276"; "0.081481"; "93.616333"; "2.770293"]);
("Si4+", ["3.676722"; "3.828496"; "1.258033"; "0.419024"; "0.720421"; "0.097266"; "1.446851"; "3.013144"; "0.064397"; "0.206254"; "5.970222"]);
("P", ["1.950541"; "4.146930"; "1.494560"; "1.522042"; "5.729711"; "0.155233"; "0.908139"; "27.044952"; "0.071280"; "67.520187"; "1.981173"]);
("S", ["6.372157"; "5.154568"; "1.473732"; "1.635073"; "1.209372"; "0.154722"; "1.514347"; "22.092527"; "0.061373"; "55.445175"; "0.646925"]);
("Cl", ["1.446071"; "6.870609"; "6.151801"; "1.750347"; "0.634168"; "0.146773"; "0.052357"; "1.193165"; "18.343416"; "46.398396"; "0.401005"]);
("Cl1-", ["1.061802"; "7.139886"; "6.524271"; "2.355626"; "35.829403"; "-34.916603"; "0.144727"; "1.171795"; "19.467655"; "60.320301"; "0.000436"]);
("Ar", ["7.188004"; "6.638454"; "0.454180"; "1.929593"; "1.523654"; "0.265954"; "0.956221"; "15.339877"; "15.339862"; "39.043823"; "0.062409"]);
("K", ["8.163991"; "7.146945"; "1.070140"; "0.877316"; "1.486434"; "0.253614"; "12.816323"; "0.808945"; "210.327011"; "39.597652"; "0.052821"]);
("K1+", ["-17.609339"; "1.494873"; "7.150305"; "10.899569"; "15.808228"; "0.257164"; "18.840979"; "0.053453"; "0.812940"; "22.264105"; "14.351593"]);
("Ca", ["8.593655"; "1.477324"; "1.436254"; "1.182839"; "7.113258"; "0.196255"; "10.460644"; "0.041891"; "81.390381"; "169.847839"; "0.688098"]);
("Ca2+", ["8.501441"; "12.880483"; "9.765095"; "7.156669"; "0.711160"; "-21.013187"; "10.525848"; "-0.004033"; "0.010692"; "0.684443"; "27.231771"]);
("Sc", ["1.476566"; "1.487278"; "1.600187"; "9.177463"; "7.099750"; "0.157765"; "53.131023"; "0.035325"; "137.319489"; "9.098031"; "0.602102"]);
("Sc3+", ["7.104348"; "1.511488"; "-53.669773"; "38.404816"; "24.532240"; "0.118642"; "0.601957"; "0.033386"; "12.572138"; "10.859736"; "14.125230"]);
("Ti", ["9.818524"; "1.522646"; "1.703101"; "1.768774"; "7.082555"; "0.102473"; "8.001879"; "0.029763"; "39.885422"; "120.157997"; "0.532405"]);
("Ti2+", ["7.040119"; "1.496285"; "9.657304"; "0.006534"; "1.649561"; "0.150362"; "0.537072"; "0.031914"; "8.009958"; "201.800293"; "24.039482"]);
("Ti3+", ["36.587933"; "7.230255"; "-9.086077"; "2.084594"; "17.294008"; "-35.111282"; "0.000681"; "0.522262"; "5.262317"; "15.881716"; "6.149805"]);
("Ti4+", ["45.355537"; "7.092900"; "7.483858"; "-43.498817"; "1.678915"; "-0.110628"; "9.252186"; "0.523046"; "13.082852"; "10.193876"; "0.023064"]);
("V", ["10.473575"; "1.547881"; "1.986381"; "1.865616"; "7.056250"; "0.067744"; "7.081940"; "0.026040"; "31.909672"; "108.022842"; "0.474882"]);
("V2+", ["7.754356"; "2.064100"; "2.576998"; "2.011404"; "7.126177"; "-0.533379"; "7.066315"; "0.014993"; "7.066308"; "22.055786"; "0.467568"]);
("V3+", ["9.958480"; "1.596350"; "1.483442"; "-10.846044"; "17.332867"; "0.474921"; "6.763041"; "0.056895"; "17.750029"; "0.328826"; "0.388013"]);
("V5+", ["15.575018"; "8.448095"; "1.612040"; "-9.721855"; "1.534029"; "0.552676"; "0.682708"; "5.566640"; "10.527077"; "0.907961"; "0.066667"]);
("Cr", ["11.007069"; "1.555477"; "2.985293"; "1.347855"; "7.034779"; "0.065510"; "6.366281"; "0.023987"; "23.244839"; "105.774498"; "0.429369"]);
("Cr2+", ["10.598877"; "1.565858"; "2.728280"; "0.098064"; "6.959321"; "0.049870"; "6.151846"; "0.023519"; "17.432816"; "54.002388"; "0.426301"]);
("Cr3+", ["7.989310"; "1.765079"; "2.627125"; "1.829380"; "6.980908"; "-0.192123"; "6.068867"; "0.018342"; "6.068887"; "16.309284"; "0.420864"]);
("Mn", ["11.709542"; "1.733414"; "2.673141"; "2.023368"; "7.003180"; "-0.147293"; "5.597120"; "0.017800"; "21.788420"; "89.517914"; "0.383054"]);
("Mn2+", ["11.287712"; "26.042414"; "3.058096"; "0.090258"; "7.088306"; "-24.566132"; "5.506225"; "0.000774"; "16.158575"; "54.766354"; "0.375580"]);
("Mn3+", ["6.926972"; "2.081342"; "11.128379"; "2.375107"; "-0.419287"; "-0.093713"; "0.378315"; "0.015054"; "5.379957"; "14.429586"; "0.004939"]);
("Mn4+", ["12.409131"; "7.466993"; "1.809947"; "-12.138477"; "10.780248"; "0.672146"; "0.300400"; "0.112814"; "12.520756"; "0.168653"; "5.173237"]);
("Fe", ["12.311098"; "1.876623"; "3.066177"; "2.070451"; "6.975185"; "-0.304931"; "5.009415"; "0.014461"; "18.743040"; "82.767876"; "0.346506"]);
("Fe2+", ["11.776765"; "11.165097"; "3.533495"; "0.165345"; "7.036932"; "-9.676919"; "4.912232"; "0.001748"; "14.166556"; "42.381958"; "0.341324"]);
("Fe3+", ["9.721638"; "63.403847"; "2.141347"; "2.629274"; "7.033846"; "-61.930725"; "4.869297"; "0.000293"; "4.867602"; "13.539076"; "0.338520"]);
("Co", ["12.914510"; "2.481908"; "3.466894"; "2.106351"; "6.960892"; "-0.936572"; "4.507138"; "0.009126"; "16.438129"; "76.987320"; "0.314418"]);
("Co2+", ["6.993840"; "26.285812"; "12.254289"; "0.246114"; "4.017407"; "-24.796852"; "0.310779"; "0.000684"; "4.400528"; "35.741447"; "12.536393"]);
("Co3+", ["6.861739"; "2.678570"; "12.281889"; "3.501741"; "-0.179384"; "-1.147345"; "0.309794"; "0.008142"; "4.331703"; "11.914167"; "11.914167"]);
("Ni", ["13.521865"; "6.947285"; "3.866028"; "2.135900"; "4.284731"; "-2.762697"; "4.077277"; "0.286763"; "14.622634"; "71.966080"; "0.004437"]);
("Ni2+", ["12.519017"; "37.832058"; "4.387257"; "0.661552"; "6.949072"; "-36.344471"; "3.933053"; "0.000442"; "10.449184"; "23.860998"; "0.283723"]);
("Ni3+", ["13.579366"; "1.902844"; "12.859268"; "3.811005"; "-6.838595"; "-0.317618"; "0.313140"; "0.012621"; "3.906407"; "10.894311"; "0.344379"]);
("Cu", ["14.014192"; "4.784577"; "5.056806"; "1.457971"; "6.932996"; "-3.254477"; "3.738280"; "0.003744"; "13.034982"; "72.554794"; "0.265666"]);
("Cu1+", ["12.960763"; "16.342150"; "1.110102"; "5.520682"; "6.915452"; "-14.849320"; "3.576010"; "0.000975"; "29.523218"; "10.114283"; "0.261326"]);
("Cu2+", ["11.895569"; "16.344978"; "5.799817"; "1.048804"; "6.789088"; "-14.878383"; "3.378519"; "0.000924"; "8.133653"; "20.526524"; "0.254741"]);
("Zn", ["14.741002"; "6.907748"; "4.642337"; "2.191766"; "38.424042"; "-36.915829"; "3.388232"; "0.243315"; "11.903689"; "63.312130"; "0.000397"]);
("Zn2+", ["13.340772"; "10.428857"; "5.544489"; "0.762295"; "6.869172"; "-8.945248"; "3.215913"; "0.001413"; "8.542680"; "21.891756"; "0.239215"]);
("Ga", ["15.758946"; "6.841123"; "4.121016"; "2.714681"; "2.395246"; "-0.847395"; "3.121754"; "0.226057"; "12.482196"; "66.203621"; "0.007238"]);
("Ga3+", ["13.123875"; "35.288189"; "6.126979"; "0.611551"; "6.724807"; "-33.875122"; "2.809960"; "0.000323"; "6.831534"; "16.784311"; "0.212002"]);
("Ge", ["16.540613"; "1.567900"; "3.727829"; "3.345098"; "6.785079"; "0.018726"; "2.866618"; "0.012198"; "13.432163"; "58.866047"; "0.210974"]);
("Ge4+", ["6.876636"; "6.779091"; "9.969591"; "3.135857"; "0.152389"; "1.086542"; "2.025174"; "0.176650"; "3.573822"; "7.685848"; "16.677574"]);
("As", ["17.025642"; "4.503441"; "3.715904"; "3.937200"; "6.790175"; "-2.984117"; "2.597739"; "0.003012"; "14.272119"; "50.437996"; "0.193015"]);
("Se", ["17.354071"; "4.653248"; "4.259489"; "4.136455"; "6.749163"; "-3.160982"; "2.349787"; "0.002550"; "15.579460"; "45.181202"; "0.177432"]);
("Br", ["17.550570"; "5.411882"; "3.937180"; "3.880645"; "6.707793"; "-2.492088"; "2.119226"; "16.557184"; "0.002481"; "42.164009"; "0.162121"]);
("Br1-", ["17.714310"; "6.466926"; "6.947385"; "4.402674"; "-0.697279"; "1.152674"; "2.122554"; "19.050768"; "0.152708"; "58.690361"; "58.690372"]);
("Kr", ["17.655279"; "6.848105"; "4.171004"; "3.446760"; "6.685200"; "-2.810592"; "1.908231"; "16.606236"; "0.001598"; "39.917473"; "0.146896"]);
("Rb", ["8.123134"; "2.138042"; "6.761702"; "1.156051"; "17.679546"; "1.139548"; "15.142385"; "33.542667"; "0.129372"; "224.132507"; "1.713368"]);
("Rb1+", ["17.684320"; "7.761588"; "6.680874"; "2.668883"; "0.070974"; "1.133263"; "1.710209"; "14.919863"; "0.128542"; "31.654478"; "0.128543"]);
("Sr", ["17.730219"; "9.795867"; "6.099763"; "2.620025"; "0.600053"; "1.140251"; "1.563060"; "14.310868"; "0.120574"; "135.771317"; "0.120574"]);
("Sr2+", ["17.694973"; "1.275762"; "6.154252"; "9.234786"; "0.515995"; "1.125309"; "1.550888"; "30.133041"; "0.118774"; "13.821799"; "0.118774"]);
("Y", ["17.792040"; "10.253252"; "5.714949"; "3.170516"; "0.918251"; "1.131787"; "1.429691"; "13.132816"; "0.112173"; "108.197029"; "0.112173"]);
("Zr", ["17.859772"; "10.911038"; "5.821115"; "3.512513"; "0.746965"; "1.124859"; "1.310692"; "12.319285"; "0.104353"; "91.777542"; "0.104353"]);
("Zr4+", ["6.802956"; "17.699253"; "10.650647"; "-0.248108"; "0.250338"; "0.827902"; "0.096228"; "1.296127"; "11.240715"; "-0.219259"; "-0.219021"]);
("Nb", ["17.958399"; "12.063054"; "5.007015"; "3.287667"; "1.531019"; "1.123452"; "1.211590"; "12.246687"; "0.098615"; "75.011948"; "0.098615"]);
("Nb3+", ["17.714323"; "1.675213"; "7.483963"; "8.322464"; "11.143573"; "-8.339573"; "1.172419"; "30.102791"; "0.080255"; "-0.002983"; "10.456687"]);
("Nb5+", ["17.580206"; "7.633277"; "10.793497"; "0.180884"; "67.837921"; "-68.024780"; "1.165852"; "0.078558"; "9.507652"; "31.621656"; "-0.000438"]);
("Mo", ["6.236218"; "17.987711"; "12.973127"; "3.451426"; "0.210899"; "1.108770"; "0.090780"; "1.108310"; "11.468720"; "66.684151"; "0.090780"]);
("Mo3+", ["7.447050"; "17.778122"; "11.886068"; "1.997905"; "1.789626"; "-1.898764"; "0.072000"; "1.073145"; "9.834720"; "28.221746"; "-0.011674"]);
("Mo5+", ["7.929879"; "17.667669"; "11.515987"; "0.500402"; "77.444084"; "-78.056595"; "0.068856"; "1.068064"; "9.046229"; "26.558945"; "-0.000473"]);
("Mo6+", ["34.757683"; "9.653037"; "6.584769"; "-18.628115"; "2.490594"; "1.141916"; "1.301770"; "7.123843"; "0.094097"; "1.617443"; "12.335434"]);
("Tc", ["17.840963"; "3.428236"; "1.373012"; "12.947364"; "6.335469"; "1.074784"; "1.005729"; "41.901382"; "119.320541"; "9.781542"; "0.083391"]);
("Ru", ["6.271624"; "17.906738"; "14.123269"; "3.746008"; "0.908235"; "1.043992"; "0.077040"; "0.928222"; "9.555345"; "35.860680"; "123.552246"]);
("Ru3+", ["17.894758"; "13.579529"; "10.729251"; "2.474095"; "48.227997"; "-51.905243"; "0.902827"; "8.740579"; "0.045125"; "24.764954"; "-0.001699"]);
("Ru4+", ["17.845776"; "13.455084"; "10.229087"; "1.653524"; "14.059795"; "-17.241762"; "0.901070"; "8.482392"; "0.045972"; "23.015272"; "-0.004889"]);
("Rh", ["6.216648"; "17.919739"; "3.854252"; "0.840326"; "15.173498"; "0.995452"; "0.070789"; "0.856121"; "33.889484"; "121.686691"; "9.029517"]);
("Rh3+", ["17.758621"; "14.569813"; "5.298320"; "2.533579"; "0.879753"; "0.960843"; "0.841779"; "8.319533"; "0.069050"; "23.709131"; "0.069050"]);
("Rh4+", ["17.716188"; "14.446654"; "5.185801"; "1.703448"; "0.989992"; "0.959941"; "0.840572"; "8.100647"; "0.068995"; "22.357307"; "0.068995"]);
("Pd", ["6.121511"; "4.784063"; "16.631683"; "4.318258"; "13.246773"; "0.883099"; "0.062549"; "0.784031"; "8.751391"; "34.489983"; "0.784031"]);
("Pd2+", ["6.122282"; "15.651012"; "3.513508"; "9.060790"; "8.771199"; "0.879336"; "0.062424"; "8.018296"; "24.784275"; "0.776457"; "0.776457"]);
("Pd4+", ["6.152421"; "-96.069023"; "31.622141"; "81.578255"; "17.801403"; "0.915874"; "0.063951"; "11.090354"; "13.466152"; "9.758302"; "0.783014"]);
("Ag", ["6.073874"; "17.155437"; "4.173344"; "0.852238"; "17.988686"; "0.756603"; "0.055333"; "7.896512"; "28.443739"; "110.376106"; "0.716809"]);
("Ag1+", ["6.091192"; "4.019526"; "16.948174"; "4.258638"; "13.889437"; "0.785127"; "0.056305"; "0.719340"; "7.758938"; "27.368349"; "0.719340"]);
("Ag2+", ["6.401808"; "48.699802"; "4.799859"; "-32.332523"; "16.356710"; "1.068247"; "0.068167"; "0.942270"; "20.639496"; "1.100365"; "6.883131"]);
("Cd", ["6.080986"; "18.019468"; "4.018197"; "1.303510"; "17.974669"; "0.603504"; "0.048990"; "7.273646"; "29.119284"; "95.831207"; "0.661231"]);
("Cd2+", ["6.093711"; "43.909691"; "17.041306"; "-39.675117"; "17.958918"; "0.664795"; "0.050624"; "8.654143"; "15.621396"; "11.082067"; "0.667591"]);
("In", ["6.196477"; "18.816183"; "4.050479"; "1.638929"; "17.962912"; "0.333097"; "0.042072"; "6.695665"; "31.009790"; "103.284348"; "0.610714"]);
("In3+", ["6.206277"; "18.497746"; "3.078131"; "10.524613"; "7.401234"; "0.293677"; "0.041357"; "6.605563"; "18.792250"; "0.608082"; "0.608082"]);
("Sn", ["19.325171"; "6.281571"; "4.498866"; "1.856934"; "17.917318"; "0.119024"; "6.118104"; "0.036915"; "32.529045"; "95.037186"; "0.565651"]);
("Sn2+", ["6.353672"; "4.770377"; "14.672025"; "4.235959"; "18.002131"; "-0.042519"; "0.034720"; "6.167891"; "6.167879"; "29.006456"; "0.561774"]);
("Sn4+", ["15.445732"; "6.420892"; "4.562980"; "1.713385"; "18.033537"; "-0.172219"; "6.280898"; "0.033144"; "6.280899"; "17.983601"; "0.557980"]);
("Sb", ["5.394956"; "6.549570"; "19.650681"; "1.827820"; "17.867832"; "-0.290506"; "33.326523"; "0.030974"; "5.564929"; "87.130966"; "0.523992"]);
("Sb3+", ["10.189171"; "57.461918"; "19.356573"; "4.862206"; "-45.394096"; "1.516108"; "0.089485"; "0.375256"; "5.357987"; "22.153736"; "0.297768"]);
("Sb5+", ["17.920622"; "6.647932"; "12.724075"; "1.555545"; "7.600591"; "-0.445371"; "0.522315"; "0.029487"; "5.718210"; "16.433775"; "5.718204"]);
("Te", ["6.660302"; "6.940756"; "19.847015"; "1.557175"; "17.802427"; "-0.806668"; "33.031654"; "0.025750"; "5.065547"; "84.101616"; "0.487660"]);
("I", ["19.884502"; "6.736593"; "8.110516"; "1.170953"; "17.548716"; "-0.448811"; "4.628591"; "0.027754"; "31.849096"; "84.406387"; "0.463550"]);
("I1-", ["20.010330"; "17.835524"; "8.104130"; "2.231118"; "9.158548"; "-3.341004"; "4.565931"; "0.444266"; "32.430672"; "95.149040"; "0.014906"]);
("Xe", ["19.978920"; "11.774945"; "9.332182"; "1.244749"; "17.737501"; "-6.065902"; "4.143356"; "0.010142"; "28.796200"; "75.280685"; "0.413616"]);
("Cs", ["17.418674"; "8.314444"; "10.323193"; "1.383834"; "19.876251"; "-2.322802"; "0.399828"; "0.016872"; "25.605827"; "233.339676"; "3.826915"]);
("Cs1+", ["19.939056"; "24.967621"; "10.375884"; "0.454243"; "17.660248"; "-19.394306"; "3.770511"; "0.004040"; "25.311275"; "76.537766"; "0.384730"]);
("Ba", ["19.747343"; "17.368477"; "10.465718"; "2.592602"; "11.003653"; "-5.183497"; "3.481823"; "0.371224"; "21.226641"; "173.834274"; "0.010719"]);
("Ba2+", ["19.750200"; "17.513683"; "10.884892"; "0.321585"; "65.149834"; "-59.618172"; "3.430748"; "0.361590"; "21.358307"; "70.309402"; "0.001418"]);
("La", ["19.966019"; "27.329655"; "11.018425"; "3.086696"; "17.335455"; "-21.745489"; "3.197408"; "0.003446"; "19.955492"; "141.381973"; "0.341817"]);
("La3+", ["19.688887"; "17.345703"; "11.356296"; "0.099418"; "82.358124"; "-76.846909"; "3.146211"; "0.339586"; "18.753832"; "90.345459"; "0.001072"]);
("Ce", ["17.355122"; "43.988499"; "20.546650"; "3.130670"; "11.353665"; "-38.386017"; "0.328369"; "0.002047"; "3.088196"; "134.907654"; "18.832960"]);
("Ce3+", ["26.593231"; "85.866432"; "-6.677695"; "12.111847"; "17.401903"; "-80.313423"; "3.280381"; "0.001012"; "4.313575"; "17.868504"; "0.326962"]);
("Ce4+", ["17.457533"; "25.659941"; "11.691037"; "19.695251"; "-16.994749"; "-3.515096"; "0.311812"; "-0.003793"; "16.568687"; "2.886395"; "-0.008931"]);
("Pr", ["21.551311"; "17.161730"; "11.903859"; "2.679103"; "9.564197"; "-3.871068"; "2.995675"; "0.312491"; "17.716705"; "152.192825"; "0.010468"]);
("Pr3+", ["20.879841"; "36.035797"; "12.135341"; "0.283103"; "17.167803"; "-30.500784"; "2.870897"; "0.002364"; "16.615236"; "53.909359"; "0.306993"]);
("Pr4+", ["17.496082"; "21.538509"; "20.403114"; "12.062211"; "-7.492043"; "-9.016722"; "0.294457"; "-0.002742"; "2.772886"; "15.804613"; "-0.013556"]);
("Nd", ["17.331244"; "62.783924"; "12.160097"; "2.663483"; "22.239950"; "-57.189842"; "0.300269"; "0.001320"; "17.026001"; "148.748993"; "2.910268"]);
("Nd3+", ["17.120077"; "56.038139"; "21.468307"; "10.000671"; "2.905866"; "-50.541992"; "0.291295"; "0.001421"; "2.743681"; "14.581367"; "22.485098"]);
("Pm", ["17.286388"; "51.560162"; "12.478557"; "2.675515"; "22.960947"; "-45.973682"; "0.286620"; "0.001550"; "16.223755"; "143.984512"; "2.796480"]);
("Pm3+", ["22.221066"; "17.068142"; "12.805423"; "0.435687"; "52.238770"; "-46.767181"; "2.635767"; "0.277039"; "14.927315"; "45.768017"; "0.001455"]);
("Sm", ["23.700363"; "23.072214"; "12.777782"; "2.684217"; "17.204367"; "-17.452166"; "2.689539"; "0.003491"; "15.495437"; "139.862473"; "0.274536"]);
("Sm3+", ["15.618565"; "19.538092"; "13.398946"; "-4.358811"; "24.490461"; "-9.714854"; "0.006001"; "0.306379"; "14.979594"; "0.748825"; "2.454492"]);
("Eu", ["17.186195"; "37.156837"; "13.103387"; "2.707246"; "24.419271"; "-31.586687"; "0.261678"; "0.001995"; "14.787360"; "134.816299"; "2.581883"]);
("Eu2+", ["23.899035"; "31.657497"; "12.955752"; "1.700576"; "16.992199"; "-26.204315"; "2.467332"; "0.002230"; "13.625002"; "35.089481"; "0.253136"]);
("Eu3+", ["17.758327"; "33.498665"; "24.067188"; "13.436883"; "-9.019134"; "-19.768026"; "0.244474"; "-0.003901"; "2.487526"; "14.568011"; "-0.015628"]);
("Gd", ["24.898117"; "17.104952"; "13.222581"; "3.266152"; "48.995213"; "-43.505684"; "2.435028"; "0.246961"; "13.996325"; "110.863091"; "0.001383"]);
("Gd3+", ["24.344999"; "16.945311"; "13.866931"; "0.481674"; "93.506378"; "-88.147179"; "2.333971"; "0.239215"; "12.982995"; "43.876347"; "0.000673"]);
("Tb", ["25.910013"; "32.344139"; "13.765117"; "2.751404"; "17.064405"; "-26.851971"; "2.373912"; "0.002034"; "13.481969"; "125.836510"; "0.236916"]);
("Tb3+", ["24.878252"; "16.856016"; "13.663937"; "1.279671"; "39.271294"; "-33.950317"; "2.223301"; "0.227290"; "11.812528"; "29.910065"; "0.001527"]);
("Dy", ["26.671785"; "88.687576"; "14.065445"; "2.768497"; "17.067781"; "-83.279831"; "2.282593"; "0.000665"; "12.920230"; "121.937187"; "0.225531"]);
("Dy3+", ["16.864344"; "90.383461"; "13.675473"; "1.687078"; "25.540651"; "-85.150650"; "0.216275"; "0.000593"; "11.121207"; "26.250975"; "2.135930"]);
("Ho", ["27.150190"; "16.999819"; "14.059334"; "3.386979"; "46.546471"; "-41.165253"; "2.169660"; "0.215414"; "12.213148"; "100.506783"; "0.001211"]);
("Ho3+", ["16.837524"; "63.221336"; "13.703766"; "2.061602"; "26.202621"; "-58.026505"; "0.206873"; "0.000796"; "10.500283"; "24.031883"; "2.055060"]);
("Er", ["28.174887"; "82.493271"; "14.624002"; "2.802756"; "17.018515"; "-77.135223"; "2.120995"; "0.000640"; "11.915256"; "114.529938"; "0.207519"]);
("Er3+", ["16.810127"; "22.681061"; "13.864114"; "2.294506"; "26.864477"; "-17.513460"; "0.198293"; "0.002126"; "9.973341"; "22.836388"; "1.979442"]);
("Tm", ["28.925894"; "76.173798"; "14.904704"; "2.814812"; "16.998117"; "-70.839813"; "2.046203"; "0.000656"; "11.465375"; "111.411980"; "0.199376"]);
("Tm3+", ["16.787500"; "15.350905"; "14.182357"; "2.299111"; "27.573771"; "-10.192087"; "0.190852"; "0.003036"; "9.602934"; "22.526880"; "1.912862"]);
("Yb", ["29.676760"; "65.624069"; "15.160854"; "2.830288"; "16.997850"; "-60.313812"; "1.977630"; "0.000720"; "11.044622"; "108.139153"; "0.192110"]);
("Yb2+", ["28.443794"; "16.849527"; "14.165081"; "3.445311"; "28.308853"; "-23.214935"; "1.863896"; "0.183811"; "9.225469"; "23.691355"; "0.001463"]);
("Yb3+", ["28.191629"; "16.828087"; "14.167848"; "2.744962"; "23.171774"; "-18.103676"; "1.842889"; "0.182788"; "9.045957"; "20.799847"; "0.001759"]);
("Lu", ["30.122866"; "15.099346"; "56.314899"; "3.540980"; "16.943729"; "-51.049416"; "1.883090"; "10.342764"; "0.000780"; "89.559250"; "0.183849"]);
("Lu3+", ["28.828693"; "16.823227"; "14.247617"; "3.079559"; "25.647667"; "-20.626528"; "1.776641"; "0.175560"; "8.575531"; "19.693701"; "0.001453"]);
("Hf", ["30.617033"; "15.145351"; "54.933548"; "4.096253"; "16.896156"; "-49.719837"; "1.795613"; "9.934469"; "0.000739"; "76.189705"; "0.175914"]);
("Hf4+", ["29.267378"; "16.792543"; "14.785310"; "2.184128"; "23.791996"; "-18.820383"; "1.697911"; "0.168313"; "8.190025"; "18.277578"; "0.001431"]);
("Ta", ["31.066359"; "15.341823"; "49.278297"; "4.577665"; "16.828321"; "-44.119026"; "1.708732"; "9.618455"; "0.000760"; "66.346199"; "0.168002"]);
("Ta5+", ["29.539469"; "16.741854"; "15.182070"; "1.642916"; "16.437447"; "-11.542459"; "1.612934"; "0.160460"; "7.654408"; "17.070732"; "0.001858"]);
("W", ["31.507900"; "15.682498"; "37.960129"; "4.885509"; "16.792112"; "-32.864574"; "1.629485"; "9.446448"; "0.000898"; "59.980675"; "0.160798"]);
("W6+", ["29.729357"; "17.247808"; "15.184488"; "1.154652"; "0.739335"; "3.945157"; "1.501648"; "0.140803"; "6.880573"; "14.299601"; "14.299618"]);
("Re", ["31.888456"; "16.117104"; "42.390297"; "5.211669"; "16.767591"; "-37.412682"; "1.549238"; "9.233474"; "0.000689"; "54.516373"; "0.152815"]);
("Os", ["32.210297"; "16.678440"; "48.559906"; "5.455839"; "16.735533"; "-43.677956"; "1.473531"; "9.049695"; "0.000519"; "50.210201"; "0.145771"]);
("Os4+", ["17.113485"; "15.792370"; "23.342392"; "4.090271"; "7.671292"; "3.988390"; "0.131850"; "7.288542"; "1.389307"; "19.629425"; "1.389307"]);
("Ir", ["32.004436"; "1.975454"; "17.070105"; "15.939454"; "5.990003"; "4.018893"; "1.353767"; "81.014175"; "0.128093"; "7.661196"; "26.659403"]);
("Ir3+", ["31.537575"; "16.363338"; "15.597141"; "5.051404"; "1.436935"; "4.009459"; "1.334144"; "7.451918"; "0.127514"; "21.705648"; "0.127515"]);
("Ir4+", ["30.391249"; "16.146996"; "17.019068"; "4.458904"; "0.975372"; "4.006865"; "1.328519"; "7.181766"; "0.127337"; "19.060146"; "1.328519"]);
("Pt", ["31.273891"; "18.445440"; "17.063745"; "5.555933"; "1.575270"; "4.050394"; "1.316992"; "8.797154"; "0.124741"; "40.177994"; "1.316997"]);
("Pt2+", ["31.986849"; "17.249048"; "15.269374"; "5.760234"; "1.694079"; "4.032512"; "1.281143"; "7.625512"; "0.123571"; "24.190826"; "0.123571"]);
("Pt4+", ["41.932713"; "16.339224"; "17.653894"; "6.012420"; "-12.036877"; "4.094551"; "1.111409"; "6.466086"; "0.128917"; "16.954155"; "0.778721"]);
("Au", ["16.777390"; "19.317156"; "32.979683"; "5.595453"; "10.576854"; "-6.279078"; "0.122737"; "8.621570"; "1.256902"; "38.008820"; "0.000601"]);
("Au1+", ["32.124306"; "16.716476"; "16.814100"; "7.311565"; "0.993064"; "4.040792"; "1.216073"; "7.165378"; "0.118715"; "20.442486"; "53.095985"]);
("Au3+", ["31.704271"; "17.545767"; "16.819551"; "5.522640"; "0.361725"; "4.042679"; "1.215561"; "7.220506"; "0.118812"; "20.050970"; "1.215562"]);
("Hg", ["16.839890"; "20.023823"; "28.428564"; "5.881564"; "4.714706"; "4.076478"; "0.115905"; "8.256927"; "1.195250"; "39.247227"; "1.195250"]);
("Hg1+", ["28.866837"; "19.277540"; "16.776051"; "6.281459"; "3.710289"; "4.068430"; "1.173967"; "7.583842"; "0.115351"; "29.055994"; "1.173968"]);
("Hg2+", ["32.411079"; "18.690371"; "16.711773"; "9.974835"; "-3.847611"; "4.052869"; "1.162980"; "7.329806"; "0.114518"; "22.009489"; "22.009493"]);
("Tl", ["16.630795"; "19.386616"; "32.808571"; "1.747191"; "6.356862"; "4.066939"; "0.110704"; "7.181401"; "1.119730"; "90.660263"; "26.014978"]);
("Tl1+", ["32.295044"; "16.570049"; "17.991013"; "1.535355"; "7.554591"; "4.054030"; "1.101544"; "0.110020"; "6.528559"; "52.495068"; "20.338634"]);
("Tl3+", ["32.525639"; "19.139185"; "17.100321"; "5.891115"; "12.599463"; "-9.256075"; "1.094966"; "6.900992"; "0.103667"; "18.489614"; "-0.001401"]);
("Pb", ["16.419567"; "32.738590"; "6.530247"; "2.342742"; "19.916475"; "4.049824"; "0.105499"; "1.055049"; "25.025890"; "80.906593"; "6.664449"]);
("Pb2+", ["27.392647"; "16.496822"; "19.984501"; "6.813923"; "5.233910"; "4.065623"; "1.058874"; "0.106305"; "6.708123"; "24.395554"; "1.058874"]);
("Pb4+", ["32.505657"; "20.014240"; "14.645661"; "5.029499"; "1.760138"; "4.044678"; "1.047035"; "6.670321"; "0.105279"; "16.525040"; "0.105279"]);
("Bi", ["16.282274"; "32.725136"; "6.678302"; "2.694750"; "20.576559"; "4.040914"; "0.101180"; "1.002287"; "25.714146"; "77.057549"; "6.291882"]);
("Bi3+", ["32.461437"; "19.438683"; "16.302486"; "7.322662"; "0.431704"; "4.043703"; "0.997930"; "6.038867"; "0.101338"; "18.371586"; "46.361046"]);
("Bi5+", ["16.734028"; "20.580494"; "9.452623"; "61.155834"; "-34.041023"; "4.113663"; "0.105076"; "4.773282"; "11.762162"; "1.211775"; "1.619408"]);
("Po", ["16.289164"; "32.807171"; "21.095163"; "2.505901"; "7.254589"; "4.046556"; "0.098121"; "0.966265"; "6.046622"; "76.598068"; "28.096128"]);
("At", ["16.011461"; "32.615547"; "8.113899"; "2.884082"; "21.377867"; "3.995684"; "0.092639"; "0.904416"; "26.543257"; "68.372963"; "5.499512"]);
("Rn", ["16.070229"; "32.641106"; "21.489658"; "2.299218"; "9.480184"; "4.020977"; "0.090437"; "0.876409"; "5.239687"; "69.188477"; "27.632641"]);
("Fr", ["16.007385"; "32.663830"; "21.594351"; "1.598497"; "11.121192"; "4.003472"; "0.087031"; "0.840187"; "4.954467"; "199.805801"; "26.905106"]);
("Ra", ["32.563690"; "21.396671"; "11.298093"; "2.834688"; "15.914965"; "3.981773"; "0.801980"; "4.590666"; "22.758972"; "160.404388"; "0.083544"]);
("Ra2+", ["4.986228"; "32.474945"; "21.947443"; "11.800013"; "10.807292"; "3.956572"; "0.082597"; "0.791468"; "4.608034"; "24.792431"; "0.082597"]);
("Ac", ["15.914053"; "32.535042"; "21.553976"; "11.433394"; "3.612409"; "3.939212"; "0.080511"; "0.770669"; "4.352206"; "21.381622"; "130.500748"]);
("Ac3+", ["15.584983"; "32.022125"; "21.456327"; "0.757593"; "12.341252"; "3.838984"; "0.077438"; "0.739963"; "4.040735"; "47.525002"; "19.406845"]);
("Th", ["15.784024"; "32.454899"; "21.849222"; "4.239077"; "11.736191"; "3.922533"; "0.077067"; "0.735137"; "4.097976"; "109.464111"; "20.512138"]);
("Th4+", ["15.515445"; "32.090691"; "13.996399"; "12.918157"; "7.635514"; "3.831122"; "0.074499"; "0.711663"; "3.871044"; "18.596891"; "3.871044"]);
("Pa", ["32.740208"; "21.973675"; "12.957398"; "3.683832"; "15.744058"; "3.886066"; "0.709545"; "4.050881"; "19.231543"; "117.255005"; "0.074040"]);
("U", ["15.679275"; "32.824306"; "13.660459"; "3.687261"; "22.279434"; "3.854444"; "0.071206"; "0.681177"; "18.236156"; "112.500038"; "3.930325"]);
("U3+", ["15.360309"; "32.395657"; "21.961290"; "1.325894"; "14.251453"; "3.706622"; "0.067815"; "0.654643"; "3.643409"; "39.604965"; "16.330570"]);
("U4+", ["15.355091"; "32.235306"; "0.557745"; "14.396367"; "21.751173"; "3.705863"; "0.067789"; "0.652613"; "42.354237"; "15.908239"; "3.553231"]);
("U6+", ["15.333844"; "31.770849"; "21.274414"; "13.872636"; "0.048519"; "3.700591"; "0.067644"; "0.646384"; "3.317894"; "14.650250"; "75.339699"]);
("Np", ["32.999901"; "22.638077"; "14.219973"; "3.672950"; "15.683245"; "3.769391"; "0.657086"; "3.854918"; "17.435474"; "109.464485"; "0.068033"]);
("Np3+", ["15.378152"; "32.572132"; "22.206125"; "1.413295"; "14.828381"; "3.603370"; "0.064613"; "0.631420"; "3.561936"; "37.875511"; "15.546129"]);
("Np4+", ["15.373926"; "32.423019"; "21.969994"; "0.662078"; "14.969350"; "3.603039"; "0.064597"; "0.629658"; "3.476389"; "39.438942"; "15.135764"]);
("Np6+", ["15.359986"; "31.992825"; "21.412458"; "0.066574"; "14.568174"; "3.600942"; "0.064528"; "0.624505"; "3.253441"; "67.658318"; "13.980832"]);
("Pu", ["33.281178"; "23.148544"; "15.153755"; "3.031492"; "15.704215"; "3.664200"; "0.634999"; "3.856168"; "16.849735"; "121.292038"; "0.064857"]);
("Pu3+", ["15.356004"; "32.769127"; "22.680210"; "1.351055"; "15.416232"; "3.428895"; "0.060590"; "0.604663"; "3.491509"; "37.260635"; "14.981921"]);
("Pu4+", ["15.416219"; "32.610569"; "22.256662"; "0.719495"; "15.518152"; "3.480408"; "0.061456"; "0.607938"; "3.411848"; "37.628792"; "14.464360"]);
("Pu6+", ["15.436506"; "32.289719"; "14.726737"; "15.012391"; "7.024677"; "3.502325"; "0.061815"; "0.606541"; "3.245363"; "13.616438"; "3.245364"]);
("Am", ["33.435162"; "23.657259"; "15.576339"; "3.027023"; "15.746100"; "3.541160"; "0.612785"; "3.792942"; "16.195778"; "117.757004"; "0.061755"]);
("Cm", ["15.804837"; "33.480801"; "24.150198"; "3.655563"; "15.499866"; "3.390840"; "0.058619"; "0.590160"; "3.674720"; "100.736191"; "15.408296"]);
("Bk", ["15.889072"; "33.625286"; "24.710381"; "3.707139"; "15.839268"; "3.213169"; "0.055503"; "0.569571"; "3.615472"; "97.694786"; "14.754303"]);
("Cf", ["33.794075"; "25.467693"; "16.048487"; "3.657525"; "16.008982"; "3.005326"; "0.550447"; "3.581973"; "14.357388"; "96.064972"; "0.052450"])]%string.

(** The data files of /repo/moonpies/data that a run reads, as they are shipped. *)
From Coq Require Import Ascii String List.
Import ListNotations.
Open Scope string_scope.

(** Lines with the given line end between them. *)
Fixpoint text_of (eol : string) (lines : list string) : string :=
  match lines with
  | [] => ""
  | [l] => l
  | l :: r => l ++ eol ++ text_of eol r
  end.
Definition LF : string := String (ascii_of_nat 10) "".
Definition CRLF : string := String (ascii_of_nat 13) LF.

(** /repo/moonpies/data/crater_list.csv, lines 1-25. *)
Definition crater_list_csv : string := text_of CRLF [
  "Crater Name,Lat (deg),Lon (deg),PSR centroid Lat (deg),PSR centroid Lon (deg),Diam (km),Age (Ga),Error (- Ga),Error (+ Ga),PSR Area (km^2),Age Ref.,Priority (1 - high),Notes";
  "Haworth,-87.5,354.8,-87.493,357.876,51.4,4.18,0.02,0.02,1017.932,Tye et al. 2015,1,";
  "Shoemaker,-88.1,45.9,-88.026,45.279,51.8,4.15,0.02,0.02,1075.518,Tye et al. 2015,1,";
  "Faustini,-87.2,84.3,-87.146,84.075,42.5,4.1,0.03,0.03,663.934,Tye et al. 2015,1,";
  "Amundsen,-84.4,83.1,-83.524,91.015,103.4,3.9,0.1,0.1,701.959,Cannon et al. 2020,1,";
  "Cabeus B,-82.3,305.4,-81.691,305.381,59.6,3.9,0.1,0.1,387.205,Cannon et al. 2020,2,";
  "de Gerlache,-88.5,271.7,-88.312,269.143,32.7,3.9,0.1,0.1,243.292,Cannon et al. 2020,1,";
  "Hedervari,-81.9,85.6,NaN,NaN,74.1,3.9,0.1,0.1,,Cannon et al. 2020,2,";
  "Idel'son L,-84,118.6,-83.891,118.47,28,3.9,0.1,0.1,326.779,Cannon et al. 2020,2,";
  "Unnamed 1,-83.7,69.2,-83.055,67.449,57.7,3.9,0.1,0.1,,Cannon et al. 2020,2,";
  "Cabeus,-85.3,317.9,-84.458,313.432,100.6,3.88,0.1,0.1,315.029,Cannon et al. 2020,1,";
  "Nobile,-85.3,53.3,-84.551,60.29,79.3,3.8,0.1,0.1,,Cannon et al. 2020,2,";
  "Scott,-82.4,48.5,-80.791,45.506,107.8,3.8,0.1,0.1,,Cannon et al. 2020,2,";
  "Scott E,-81.2,35.7,-80.982,35.79,29.2,3.8,0.1,0.1,,Cannon et al. 2020,2,";
  "Slater,-88.1,111.3,-88.1,114.782,25.1,3.8,0.1,0.1,183.172,Cannon et al. 2020,2,";
  "Sverdrup,-88.3,206.6,-88.249,216.455,32.8,3.8,0.1,0.1,548.791,Cannon et al. 2020,1,";
  "Wiechert P,-85.1,151.8,-84.755,150.077,38.6,3.8,0.1,0.1,,Cannon et al. 2020,2,";
  "Unnamed 2,-82.2,10.6,-82.402,11.498,26.8,3.7,0.1,0.1,,Cannon et al. 2020,3,";
  "Wiechert,-84,164.7,-83.74,163.086,40.8,3.7,0.2,0.1,,Cannon et al. 2020,3,";
  "Idel'son,-81.3,112.7,NaN,NaN,59.8,3.5,0.5,0.1,,Cannon et al. 2020,3,";
  "Unnamed 3,-83.9,338.3,-83.767,338.771,22.3,3.4,0.5,0.1,,Cannon et al. 2020,3,";
  "Wiechert U,-83.4,149,-83.295,149.545,30,3.4,0.7,0.1,,Cannon et al. 2020,3,";
  "Wiechert J,-85.2,182.4,-85.023,182.607,34.9,3.2,0.1,0.3,371.549,Cannon et al. 2020,3,";
  "Shackleton,-89.7,129.8,-89.645,128.203,20.9,3.15,0.08,0.05,233.698,Tye et al. 2015,1,";
  "Amundsen C,-80.8,85.2,NaN,NaN,24.2,1.8,0.2,0.2,,Cannon et al. 2020,3,"].

(** /repo/moonpies/data/basin_list.csv, lines 1-28. *)
Definition basin_list_csv : string := text_of CRLF [
  "Crater Name,Lat (deg),Lon (deg),Main ring diam (km),Inner ring diam (km),Bouguer diam (km),Age (Ga),Error (- Ga),Error (+ Ga),Source";
  "Cruger-Sirsalis,-16,293,430,212,268,4.26,0.041,0.032,""Ages: Orgel et al. 2018, Diameters & Coords: Neumann et al. 2015""";
  "Amundsen-Ganswindt,-81,123,378,,170,4.26,0.052,0.038,""Ages: Orgel et al. 2018, Diameters & Coords: Neumann et al. 2015""";
  "Dirichlet-Jackson,13.4,201.8,452,228,220,4.23,0.026,0.022,""Ages: Orgel et al. 2018, Diameters & Coords: Neumann et al. 2015""";
  "Serenitatis,25.4,18.8,923,416,556,4.22,0.033,0.027,""Ages: Orgel et al. 2018, Diameters & Coords: Neumann et al. 2015""";
  "Poincare,-57.3,163.1,312,175,188,4.23,0.04,0.031,""Ages: Orgel et al. 2018, Diameters & Coords: Neumann et al. 2015""";
  "Coulomb-Sarton,51.2,237.5,672,315,330,4.23,0.03,0.025,""Ages: Orgel et al. 2018, Diameters & Coords: Neumann et al. 2015""";
  "Lorentz,34.2,263,351,173,156,4.2,0.036,0.029,""Ages: Orgel et al. 2018, Diameters & Coords: Neumann et al. 2015""";
  "Schiller-Zucchius,-55.7,314.8,361,179,210,4.24,0.052,0.038,""Ages: Orgel et al. 2018, Diameters & Coords: Neumann et al. 2015""";
  "Birkhoff,58.9,213.4,334,163,130,4.29,0.047,0.035,""Ages: Orgel et al. 2018, Diameters & Coords: Neumann et al. 2015""";
  "Ingenii,-32.8,163.8,342,,154,4.28,0.047,0.035,""Ages: Orgel et al. 2018, Diameters & Coords: Neumann et al. 2015""";
  "Fitzgerald-Jackson,25.1,190.6,600,-346,334,4.26,0.063,0.044,""Ages: Orgel et al. 2018, Diameters & Coords: Neumann et al. 2015""";
  "Freundlich-Sharanov,18.35,175.2,582,318,318,4.14,0.023,0.019,""Ages: Orgel et al. 2018, Diameters & Coords: Neumann et al. 2015""";
  "Nectaris,-15.6,35.1,885,440,440,4.17,0.014,0.012,""Ages: Orgel et al. 2018, Diameters & Coords: Neumann et al. 2015""";
  "Grimaldi,-5,291.3,460,234,220,4.14,0.044,0.033,""Ages: Orgel et al. 2018, Diameters & Coords: Neumann et al. 2015""";
  "Mendel-Rydberg,-49.8,265.4,650,-325,328,4.13,0.026,0.022,""Ages: Orgel et al. 2018, Diameters & Coords: Neumann et al. 2015""";
  "Apollo,-36.1,208.3,492,247,264,4.14,0.029,0.024,""Ages: Orgel et al. 2018, Diameters & Coords: Neumann et al. 2015""";
  "Planck,-57.4,135.1,321,160,128,4.13,0.053,0.038,""Ages: Orgel et al. 2018, Diameters & Coords: Neumann et al. 2015""";
  "Moscoviense,26.1,147,421,192,,4.09,0.024,0.02,""Ages: Orgel et al. 2018, Diameters & Coords: Neumann et al. 2015""";
  "Korolev,-4.4,202.2,417,206,202,4.11,0.025,0.021,""Ages: Orgel et al. 2018, Diameters & Coords: Neumann et al. 2015""";
  "Mendeleev,5.5,141.1,331,144,156,4.13,0.064,0.044,""Ages: Orgel et al. 2018, Diameters & Coords: Neumann et al. 2015""";
  "Humorum,-23.8,320.8,816,441,360,4.09,0.027,0.023,""Ages: Orgel et al. 2018, Diameters & Coords: Neumann et al. 2015""";
  "Hertzsprung,2,231,571,256,254,4.09,0.037,0.03,""Ages: Orgel et al. 2018, Diameters & Coords: Neumann et al. 2015""";
  "Crisium,16.8,58.4,1076,505,498,4.07,0.018,0.016,""Ages: Orgel et al. 2018, Diameters & Coords: Neumann et al. 2015""";
  "Humboldtianum,57.26,82,618,322,312,4.08,0.032,0.026,""Ages: Orgel et al. 2018, Diameters & Coords: Neumann et al. 2015""";
  "Imbrium,37,341.5,1321,676,684,3.87,0.046,0.035,""Ages: Orgel et al. 2018, Diameters & Coords: Neumann et al. 2015""";
  "Schrodinger,-74.9,133.5,326,150,154,3.86,0.03,0.025,""Ages: Orgel et al. 2018, Diameters & Coords: Neumann et al. 2015""";
  "Orientale,-20.1,265.2,937,481,436,3.81,0.0085,0.0081,""Ages: Orgel et al. 2018, Diameters & Coords: Neumann et al. 2015""";
  ""].

(** /repo/moonpies/data/bahcall_etal_2001_t2.csv, lines 1-43. *)
Definition bahcall_csv : string := text_of CRLF [
  "﻿Bahcall, John N., M. H. Pinsonneault, and Sarbani Basu. ""Solar models: Current epoch and time dependences, neutrinos, and helioseismological properties."" The Astrophysical Journal 555.2 (2001): 990. https://doi.org/10.1086/321493";
  "Age,Luminosity";
  "0,0.677";
  "0.2,0.721";
  "0.4,0.733";
  "0.6,0.744";
  "0.8,0.754";
  "1,0.764";
  "1.2,0.775";
  "1.4,0.786";
  "1.6,0.797";
  "1.8,0.808";
  "2,0.82";
  "2.2,0.831";
  "2.4,0.844";
  "2.6,0.856";
  "2.8,0.869";
  "3,0.882";
  "3.2,0.896";
  "3.4,0.91";
  "3.6,0.924";
  "3.8,0.939";
  "4,0.954";
  "4.2,0.97";
  "4.4,0.986";
  "4.6,1.003";
  "4.8,1.02";
  "5,1.037";
  "5.2,1.055";
  "5.4,1.073";
  "5.6,1.092";
  "5.8,1.112";
  "6,1.132";
  "6.2,1.152";
  "6.4,1.172";
  "6.6,1.193";
  "6.8,1.214";
  "7,1.235";
  "7.2,1.256";
  "7.4,1.278";
  "7.6,1.304";
  "7.8,1.332";
  "8,1.363"].

(** /repo/moonpies/data/ballistic_hop_coldtraps.csv, lines 1-13. *)
Definition ballistic_hop_csv : string := text_of LF [
  "coldtrap,bhop_efficiency_pct";
  "Haworth,0.024314361795366585";
  "Shoemaker,0.01697842004872681";
  "Faustini,0.062161999379547535";
  "Amundsen,0.062161999379547535";
  "Cabeus,0.062161999379547535";
  "Cabeus B,0.062161999379547535";
  "de Gerlache,0.018351603725520863";
  "Idel'son L,0.062161999379547535";
  "Sverdrup,0.021138131396110177";
  "Shackleton,0.005508568156485407";
  "Wiechert J,0.062161999379547535";
  "Slater,0.018822718390119283";
  ""].

(** /repo/moonpies/data/ballistic_sed_frac_melted_mean.csv, lines 1-41. *)
Definition melt_mean_csv : string := text_of LF [
  ",110,115,120,125,130,135,140,145,150,155,160,165,170,175,180,185,190,195,200,205,210,215,220,225,230,235,240,245,250,255,260,265,270,275,280,285,290,295,300,305,310,315,320,325,330,335,340,345,350,355,360,365,370,375,380,385,390,395,400,405,410,415,420,425,430,435,440,445,450,455,460,465,470,475,480,485,490,495,500,505,510";
  "0,1,1,1,1,1,1,1,1,1,1,1,1,1,1,1,1,1,1,1,1,1,1,1,1,1,1,1,1,1,1,1,1,1,1,1,1,1,1,1,1,1,1,1,1,1,1,1,1,1,1,1,1,1,1,1,1,1,1,1,1,1,1,1,1,1,1,1,1,1,1,1,1,1,1,1,1,1,1,1,1,1";
  "0.025641,0,0.676,0.99,1,1,1,1,1,1,1,1,1,1,1,1,1,1,1,1,1,1,1,1,1,1,1,1,1,1,1,1,1,1,1,1,1,1,1,1,1,1,1,1,1,1,1,1,1,1,1,1,1,1,1,1,1,1,1,1,1,1,1,1,1,1,1,1,1,1,1,1,1,1,1,1,1,1,1,1,1,1";
  "0.0526316,0,0.488,0.941,1,1,1,1,1,1,1,1,1,1,1,1,1,1,1,1,1,1,1,1,1,1,1,1,1,1,1,1,1,1,1,1,1,1,1,1,1,1,1,1,1,1,1,1,1,1,1,1,1,1,1,1,1,1,1,1,1,1,1,1,1,1,1,1,1,1,1,1,1,1,1,1,1,1,1,1,1,1";
  "0.0810811,0,0.332,0.878667,0.987333,1,1,1,1,1,1,1,1,1,1,1,1,1,1,1,1,1,1,1,1,1,1,1,1,1,1,1,1,1,1,1,1,1,1,1,1,1,1,1,1,1,1,1,1,1,1,1,1,1,1,1,1,1,1,1,1,1,1,1,1,1,1,1,1,1,1,1,1,1,1,1,1,1,1,1,1,1";
  "0.111111,0,0.207,0.787,0.9665,1,1,1,1,1,1,1,1,1,1,1,1,1,1,1,1,1,1,1,1,1,1,1,1,1,1,1,1,1,1,1,1,1,1,1,1,1,1,1,1,1,1,1,1,1,1,1,1,1,1,1,1,1,1,1,1,1,1,1,1,1,1,1,1,1,1,1,1,1,1,1,1,1,1,1,1,1";
  "0.142857,0,0.1356,0.6564,0.942,0.9964,1,1,1,1,1,1,1,1,1,1,1,1,1,1,1,1,1,1,1,1,1,1,1,1,1,1,1,1,1,1,1,1,1,1,1,1,1,1,1,1,1,1,1,1,1,1,1,1,1,1,1,1,1,1,1,1,1,1,1,1,1,1,1,1,1,1,1,1,1,1,1,1,1,1,1,1";
  "0.176471,0,0.0736667,0.514667,0.865333,0.972333,0.999667,1,1,1,1,1,1,1,1,1,1,1,1,1,1,1,1,1,1,1,1,1,1,1,1,1,1,1,1,1,1,1,1,1,1,1,1,1,1,1,1,1,1,1,1,1,1,1,1,1,1,1,1,1,1,1,1,1,1,1,1,1,1,1,1,1,1,1,1,1,1,1,1,1,1,1";
  "0.212121,0,0.0448571,0.418571,0.798286,0.952857,0.994571,1,1,1,1,1,1,1,1,1,1,1,1,1,1,1,1,1,1,1,1,1,1,1,1,1,1,1,1,1,1,1,1,1,1,1,1,1,1,1,1,1,1,1,1,1,1,1,1,1,1,1,1,1,1,1,1,1,1,1,1,1,1,1,1,1,1,1,1,1,1,1,1,1,1,1";
  "0.25,0,0.0255,0.29025,0.689,0.90925,0.983,0.999,1,1,1,1,1,1,1,1,1,1,1,1,1,1,1,1,1,1,1,1,1,1,1,1,1,1,1,1,1,1,1,1,1,1,1,1,1,1,1,1,1,1,1,1,1,1,1,1,1,1,1,1,1,1,1,1,1,1,1,1,1,1,1,1,1,1,1,1,1,1,1,1,1,1";
  "0.290323,0,0.0110619,0.207965,0.580973,0.842478,0.962389,0.990929,0.998009,1,1,1,1,1,1,1,1,1,1,1,1,1,1,1,1,1,1,1,1,1,1,1,1,1,1,1,1,1,1,1,1,1,1,1,1,1,1,1,1,1,1,1,1,1,1,1,1,1,1,1,1,1,1,1,1,1,1,1,1,1,1,1,1,1,1,1,1,1,1,1,1,1";
  "0.333333,0,0.006,0.1416,0.4814,0.7912,0.922,0.9818,0.9994,1,1,1,1,1,1,1,1,1,1,1,1,1,1,1,1,1,1,1,1,1,1,1,1,1,1,1,1,1,1,1,1,1,1,1,1,1,1,1,1,1,1,1,1,1,1,1,1,1,1,1,1,1,1,1,1,1,1,1,1,1,1,1,1,1,1,1,1,1,1,1,1,1";
  "0.37931,0,0.002,0.103636,0.363455,0.674545,0.877455,0.960364,0.991091,0.999818,1,1,1,1,1,1,1,1,1,1,1,1,1,1,1,1,1,1,1,1,1,1,1,1,1,1,1,1,1,1,1,1,1,1,1,1,1,1,1,1,1,1,1,1,1,1,1,1,1,1,1,1,1,1,1,1,1,1,1,1,1,1,1,1,1,1,1,1,1,1,1,1";
  "0.428571,0,0.002,0.066,0.274,0.563333,0.817333,0.941333,0.982833,0.9945,0.996333,0.999167,1,1,1,1,1,1,1,1,1,1,1,1,1,1,1,1,1,1,1,1,1,1,1,1,1,1,1,1,1,1,1,1,1,1,1,1,1,1,1,1,1,1,1,1,1,1,1,1,1,1,1,1,1,1,1,1,1,1,1,1,1,1,1,1,1,1,1,1,1,1";
  "0.481481,0,0.000615385,0.0410769,0.191692,0.454,0.709077,0.888923,0.970769,0.993846,0.998154,0.999385,1,1,1,1,1,1,1,1,1,1,1,1,1,1,1,1,1,1,1,1,1,1,1,1,1,1,1,1,1,1,1,1,1,1,1,1,1,1,1,1,1,1,1,1,1,1,1,1,1,1,1,1,1,1,1,1,1,1,1,1,1,1,1,1,1,1,1,1,1,1";
  "0.538462,0,0.0002849,0.0280627,0.143305,0.360826,0.617094,0.818091,0.932194,0.972792,0.990171,0.996439,0.99943,1,1,1,1,1,1,1,1,1,1,1,1,1,1,1,1,1,1,1,1,1,1,1,1,1,1,1,1,1,1,1,1,1,1,1,1,1,1,1,1,1,1,1,1,1,1,1,1,1,1,1,1,1,1,1,1,1,1,1,1,1,1,1,1,1,1,1,1,1";
  "0.6,0,0.000266667,0.0162667,0.0946667,0.2712,0.498,0.718,0.873867,0.9568,0.983467,0.9948,0.997733,1,1,1,1,1,1,1,1,1,1,1,1,1,1,1,1,1,1,1,1,1,1,1,1,1,1,1,1,1,1,1,1,1,1,1,1,1,1,1,1,1,1,1,1,1,1,1,1,1,1,1,1,1,1,1,1,1,1,1,1,1,1,1,1,1,1,1,1,1";
  "0.666667,0,0.00025,0.01075,0.073,0.208,0.41175,0.617375,0.792,0.89125,0.95225,0.986125,0.994875,0.9995,1,1,1,1,1,1,1,1,1,1,1,1,1,1,1,1,1,1,1,1,1,1,1,1,1,1,1,1,1,1,1,1,1,1,1,1,1,1,1,1,1,1,1,1,1,1,1,1,1,1,1,1,1,1,1,1,1,1,1,1,1,1,1,1,1,1,1,1";
  "0.73913,0,0,0.00811765,0.0529412,0.150941,0.310471,0.511059,0.701882,0.838706,0.921294,0.977176,0.994824,0.998118,1,1,1,1,1,1,1,1,1,1,1,1,1,1,1,1,1,1,1,1,1,1,1,1,1,1,1,1,1,1,1,1,1,1,1,1,1,1,1,1,1,1,1,1,1,1,1,1,1,1,1,1,1,1,1,1,1,1,1,1,1,1,1,1,1,1,1,1";
  "0.818182,0,0,0.00544444,0.0384444,0.116556,0.237,0.396222,0.600889,0.757,0.869,0.941222,0.975,0.990222,0.995111,1,1,1,1,1,1,1,1,1,1,1,1,1,1,1,1,1,1,1,1,1,1,1,1,1,1,1,1,1,1,1,1,1,1,1,1,1,1,1,1,1,1,1,1,1,1,1,1,1,1,1,1,1,1,1,1,1,1,1,1,1,1,1,1,1,1,1";
  "0.904762,0,0,0.00241597,0.0245798,0.0859244,0.185189,0.321639,0.490861,0.660819,0.803361,0.891807,0.947374,0.974055,0.992752,0.998319,0.99937,1,1,1,1,1,1,1,1,1,1,1,1,1,1,1,1,1,1,1,1,1,1,1,1,1,1,1,1,1,1,1,1,1,1,1,1,1,1,1,1,1,1,1,1,1,1,1,1,1,1,1,1,1,1,1,1,1,1,1,1,1,1,1,1,1";
  "1,0,0,0.0013,0.0163,0.0596,0.1343,0.2468,0.4033,0.5567,0.711,0.8357,0.9145,0.9547,0.9778,0.9919,0.9978,1,1,1,1,1,1,1,1,1,1,1,1,1,1,1,1,1,1,1,1,1,1,1,1,1,1,1,1,1,1,1,1,1,1,1,1,1,1,1,1,1,1,1,1,1,1,1,1,1,1,1,1,1,1,1,1,1,1,1,1,1,1,1,1,1";
  "1.10526,0,0,0.000952381,0.0109524,0.0439048,0.100857,0.18781,0.327714,0.458286,0.599429,0.735619,0.830095,0.89381,0.93819,0.968667,0.987238,0.996857,0.999143,1,1,1,1,1,1,1,1,1,1,1,1,1,1,1,1,1,1,1,1,1,1,1,1,1,1,1,1,1,1,1,1,1,1,1,1,1,1,1,1,1,1,1,1,1,1,1,1,1,1,1,1,1,1,1,1,1,1,1,1,1,1,1";
  "1.22222,0,0,0.000725953,0.00689655,0.0313067,0.0739564,0.142015,0.249002,0.344918,0.487024,0.613158,0.736207,0.83412,0.907169,0.948457,0.977495,0.988475,0.994374,0.997731,0.99882,0.999365,1,1,1,1,1,1,1,1,1,1,1,1,1,1,1,1,1,1,1,1,1,1,1,1,1,1,1,1,1,1,1,1,1,1,1,1,1,1,1,1,1,1,1,1,1,1,1,1,1,1,1,1,1,1,1,1,1,1,1,1";
  "1.35294,0,0,0.000347826,0.00452174,0.0232174,0.0563478,0.104087,0.185913,0.270087,0.385565,0.518609,0.639391,0.744696,0.824783,0.882087,0.928087,0.96,0.981304,0.991913,0.996522,0.998522,1,1,1,1,1,1,1,1,1,1,1,1,1,1,1,1,1,1,1,1,1,1,1,1,1,1,1,1,1,1,1,1,1,1,1,1,1,1,1,1,1,1,1,1,1,1,1,1,1,1,1,1,1,1,1,1,1,1,1,1";
  "1.5,0,0,0.000332779,0.0030782,0.016223,0.0404326,0.0805324,0.152329,0.222379,0.310815,0.413062,0.512479,0.620965,0.72005,0.803161,0.86173,0.912146,0.946922,0.969717,0.98228,0.989767,0.993344,0.995341,0.997255,1,1,1,1,1,1,1,1,1,1,1,1,1,1,1,1,1,1,1,1,1,1,1,1,1,1,1,1,1,1,1,1,1,1,1,1,1,1,1,1,1,1,1,1,1,1,1,1,1,1,1,1,1,1,1,1,1";
  "1.66667,0,0,0,0.00216,0.01136,0.0284,0.0536,0.11192,0.1624,0.244,0.33384,0.41168,0.50416,0.60192,0.704,0.77824,0.84336,0.89288,0.93432,0.96496,0.98016,0.98528,0.9904,0.99544,0.99768,0.99944,1,1,1,1,1,1,1,1,1,1,1,1,1,1,1,1,1,1,1,1,1,1,1,1,1,1,1,1,1,1,1,1,1,1,1,1,1,1,1,1,1,1,1,1,1,1,1,1,1,1,1,1,1,1,1";
  "1.85714,0,0,7.69231e-05,0.001,0.00623077,0.0194615,0.0405385,0.0802308,0.123385,0.188231,0.261385,0.333385,0.403,0.498308,0.600462,0.672769,0.748923,0.812,0.857923,0.893077,0.922077,0.945231,0.958846,0.971769,0.982462,0.991385,0.996077,0.998538,1,1,1,1,1,1,1,1,1,1,1,1,1,1,1,1,1,1,1,1,1,1,1,1,1,1,1,1,1,1,1,1,1,1,1,1,1,1,1,1,1,1,1,1,1,1,1,1,1,1,1,1,1";
  "2.07692,0,0,0,0.000443787,0.00465976,0.0149408,0.0297337,0.0627959,0.0891272,0.140533,0.20074,0.260281,0.319749,0.380769,0.459837,0.534246,0.627441,0.70355,0.765459,0.817086,0.859985,0.894822,0.926257,0.946302,0.959098,0.973669,0.981435,0.986908,0.992973,0.997263,0.998891,1,1,1,1,1,1,1,1,1,1,1,1,1,1,1,1,1,1,1,1,1,1,1,1,1,1,1,1,1,1,1,1,1,1,1,1,1,1,1,1,1,1,1,1,1,1,1,1,1,1";
  "2.33333,0,0,0,0.000285307,0.00335235,0.0105563,0.0204708,0.0485021,0.0686163,0.106277,0.152425,0.193937,0.236519,0.286733,0.354636,0.416762,0.501141,0.582668,0.649786,0.715835,0.765763,0.813837,0.852068,0.883452,0.909629,0.9301,0.945506,0.957846,0.968688,0.976391,0.981526,0.985449,0.988588,0.991369,0.993795,0.994579,0.995364,0.996291,0.996933,0.997789,0.998359,0.998573,0.998645,0.998716,0.998859,0.99893,0.999144,0.999572,1,1,1,1,1,1,1,1,1,1,1,1,1,1,1,1,1,1,1,1,1,1,1,1,1,1,1,1,1,1,1,1,1";
  "2.63636,0,0,0,0.000137741,0.00172176,0.00681818,0.0130854,0.0339532,0.049449,0.0794077,0.119008,0.150964,0.17686,0.217562,0.274174,0.323072,0.381405,0.45489,0.516047,0.579614,0.639669,0.687534,0.741047,0.787879,0.828444,0.864669,0.888499,0.912948,0.929959,0.951377,0.961846,0.971006,0.978857,0.982713,0.985675,0.989807,0.992218,0.993733,0.995455,0.99697,0.997452,0.998003,0.998554,0.998898,0.999105,0.999311,1,1,1,1,1,1,1,1,1,1,1,1,1,1,1,1,1,1,1,1,1,1,1,1,1,1,1,1,1,1,1,1,1,1,1";
  "3,0,0,0,0,0.000866667,0.00446667,0.00866667,0.0226667,0.0352667,0.0569333,0.0868667,0.1094,0.1278,0.1566,0.199733,0.236067,0.2916,0.355267,0.4014,0.463733,0.508267,0.548067,0.598333,0.660933,0.7148,0.753533,0.791733,0.826,0.855867,0.892867,0.909533,0.925867,0.937133,0.949267,0.9602,0.9702,0.9762,0.980267,0.984267,0.987,0.9892,0.9908,0.9922,0.993,0.993533,0.994733,0.995133,0.995867,0.996533,0.997333,0.998,0.998733,0.999067,0.9996,1,1,1,1,1,1,1,1,1,1,1,1,1,1,1,1,1,1,1,1,1,1,1,1,1,1,1";
  "3.44444,0,0,0,0,0.000451031,0.00296392,0.00515464,0.0153995,0.0246778,0.0403351,0.068299,0.0833119,0.0959407,0.115142,0.144652,0.166624,0.204317,0.255928,0.292655,0.343235,0.385309,0.428222,0.467719,0.515915,0.556572,0.598067,0.635631,0.677126,0.713209,0.778286,0.807088,0.833054,0.854253,0.866753,0.882088,0.897294,0.911469,0.920168,0.930155,0.939046,0.946649,0.954639,0.959472,0.965013,0.97049,0.974871,0.97951,0.981508,0.984729,0.986469,0.98808,0.989433,0.990399,0.99201,0.993235,0.994008,0.994459,0.994716,0.99491,0.995168,0.995425,0.995683,0.995876,0.99607,0.996198,0.996456,0.996778,0.997165,0.99768,0.998067,0.998067,0.998131,0.998196,0.998196,0.99826,0.99826,0.998325,0.998389,0.998389,0.998454,0.998454";
  "4,0,0,0,0,0.000187266,0.00131086,0.00299625,0.00986267,0.0169788,0.0291511,0.0513109,0.0609238,0.068789,0.0822722,0.104494,0.117041,0.143508,0.18583,0.210175,0.24638,0.272534,0.307865,0.340949,0.386767,0.427403,0.468914,0.504869,0.543883,0.580524,0.659363,0.683895,0.706554,0.730524,0.750624,0.773346,0.791948,0.810674,0.828714,0.846941,0.861049,0.876155,0.885081,0.894881,0.903433,0.910737,0.917978,0.925031,0.931773,0.936829,0.940449,0.945568,0.950062,0.954182,0.957678,0.960549,0.963483,0.965668,0.967478,0.969538,0.97216,0.974594,0.976155,0.977466,0.979276,0.98171,0.983333,0.984519,0.985456,0.986642,0.987141,0.98814,0.988702,0.989263,0.989888,0.990512,0.990886,0.991573,0.992135,0.992322,0.992697,0.992821";
  "4.71429,0,0,0,0,0.000121065,0.00121065,0.00181598,0.00569007,0.0109564,0.0189467,0.0394068,0.0469128,0.0521186,0.0585956,0.0746973,0.0848063,0.10339,0.136199,0.15454,0.183838,0.201755,0.21822,0.239225,0.273123,0.299758,0.329419,0.347881,0.384988,0.4204,0.510472,0.533172,0.558838,0.584383,0.605387,0.628935,0.649516,0.673063,0.692312,0.713378,0.730751,0.747579,0.764225,0.778148,0.788923,0.800666,0.809927,0.819492,0.830085,0.840557,0.851755,0.862046,0.869492,0.877119,0.883717,0.89092,0.896913,0.90224,0.906235,0.911562,0.916586,0.919431,0.923487,0.925847,0.927785,0.9296,0.932022,0.934019,0.936804,0.939528,0.941889,0.94316,0.944794,0.946126,0.947518,0.948971,0.950363,0.951695,0.952785,0.953511,0.954479,0.955145";
  "5.66667,0,0,0,0,0,0.000293772,0.000705053,0.00440658,0.00828437,0.0141011,0.0276146,0.0321387,0.0341363,0.0393067,0.0493537,0.0552291,0.0679788,0.0932432,0.105112,0.127321,0.138719,0.148707,0.16322,0.189483,0.209929,0.231199,0.246005,0.274618,0.299824,0.398531,0.413514,0.429847,0.450529,0.467215,0.484724,0.500235,0.521152,0.53631,0.552233,0.56886,0.586016,0.601293,0.615511,0.628966,0.642538,0.654935,0.66651,0.678202,0.691539,0.702879,0.713278,0.724383,0.73443,0.743596,0.751058,0.759459,0.76792,0.774148,0.780905,0.788367,0.795123,0.800646,0.806169,0.810635,0.81557,0.821093,0.826381,0.831786,0.836486,0.840658,0.844712,0.848179,0.851351,0.85517,0.858696,0.863455,0.866745,0.868566,0.871269,0.873384,0.875499";
  "7,0,0,0,0,0,5.71429e-05,5.71429e-05,0.00188571,0.00394286,0.0072,0.0179429,0.0204571,0.0213143,0.0235429,0.0298857,0.0346857,0.0426286,0.0625714,0.0689143,0.0861143,0.0928,0.100629,0.108914,0.128743,0.142286,0.158743,0.168,0.188514,0.207486,0.3052,0.313714,0.324457,0.336571,0.347086,0.357771,0.371486,0.384571,0.394171,0.406743,0.421429,0.439486,0.452114,0.4632,0.474343,0.485543,0.494857,0.504457,0.512229,0.522286,0.532571,0.544171,0.554286,0.562686,0.572914,0.581029,0.588971,0.597429,0.606971,0.616514,0.624686,0.634,0.642743,0.6528,0.659886,0.665429,0.671314,0.677543,0.683086,0.689143,0.693657,0.697029,0.7012,0.706286,0.710057,0.7144,0.720857,0.724857,0.7284,0.731371,0.734057,0.736571";
  "9,0,0,0,0,0,0.000110988,0.000110988,0.000610433,0.00199778,0.00382908,0.0113762,0.0128191,0.0131521,0.0142619,0.0175361,0.0191454,0.0237514,0.0376804,0.0416204,0.0518868,0.0558824,0.059434,0.0635405,0.077303,0.0843507,0.0951165,0.0987791,0.113707,0.126915,0.222198,0.227469,0.233074,0.241565,0.246948,0.252997,0.259489,0.269312,0.27475,0.280799,0.287014,0.296726,0.303441,0.311099,0.318313,0.326915,0.332075,0.33818,0.344118,0.35,0.356104,0.364428,0.371421,0.37869,0.385905,0.391509,0.398002,0.404606,0.410044,0.417647,0.423973,0.4303,0.437347,0.44606,0.450777,0.455105,0.460155,0.464817,0.471032,0.474639,0.478579,0.482852,0.485516,0.488235,0.491065,0.495006,0.502164,0.505716,0.508213,0.510488,0.51232,0.513762";
  "12.3333,0,0,0,0,0,0,0,0.000107991,0.000539957,0.000971922,0.00491361,0.00572354,0.00583153,0.00653348,0.00793737,0.00885529,0.0108531,0.0196004,0.0210583,0.0284557,0.0295896,0.0308855,0.0323434,0.0399028,0.0455724,0.0517279,0.0533477,0.062419,0.0704644,0.158531,0.160529,0.162635,0.168359,0.170194,0.172786,0.175108,0.181371,0.183261,0.185583,0.188985,0.195842,0.19865,0.201458,0.204644,0.209341,0.211825,0.214255,0.216469,0.21987,0.222138,0.228024,0.231371,0.236015,0.238607,0.241037,0.243413,0.24568,0.248164,0.253078,0.25567,0.258531,0.261825,0.268737,0.271328,0.273704,0.27662,0.27986,0.285097,0.287149,0.288931,0.291253,0.293197,0.295248,0.297516,0.300054,0.305994,0.308261,0.309071,0.310043,0.311231,0.312257";
  "19,0,0,0,0,0,0,0,5.25762e-05,0.000157729,0.00042061,0.0019979,0.00210305,0.00215563,0.00215563,0.00262881,0.00283912,0.00341746,0.00699264,0.00762355,0.0111462,0.0118297,0.0125657,0.0132492,0.0176656,0.0200841,0.0232913,0.0235542,0.0274448,0.0305468,0.10163,0.101945,0.102471,0.105047,0.105468,0.106257,0.106993,0.11062,0.111514,0.112461,0.113512,0.116509,0.118191,0.11919,0.120294,0.12245,0.123291,0.123712,0.124395,0.125605,0.126446,0.130494,0.131598,0.134595,0.135962,0.136909,0.137907,0.138801,0.13959,0.14143,0.142114,0.143533,0.144953,0.149211,0.149947,0.150683,0.151945,0.153312,0.156309,0.156835,0.157518,0.157886,0.158044,0.158412,0.159096,0.160305,0.165089,0.166193,0.166351,0.166509,0.166877,0.167403";
  "39,0,0,0,0,0,0,0,0,0,0,0.000461066,0.000512295,0.000512295,0.000512295,0.000563525,0.000614754,0.000665984,0.00128074,0.00133197,0.0017418,0.00179303,0.00184426,0.00184426,0.00276639,0.00338115,0.00414959,0.00420082,0.00512295,0.00584016,0.0489754,0.0490266,0.0490779,0.0497951,0.0498463,0.0498463,0.0498975,0.0503586,0.0503586,0.0504611,0.0506148,0.0515369,0.0518955,0.0519467,0.0521004,0.0527152,0.0527152,0.0527664,0.0528176,0.0529201,0.0529201,0.0537398,0.0538934,0.0548156,0.0549693,0.0550717,0.0550717,0.055123,0.0552254,0.0556352,0.0556352,0.0558402,0.0558402,0.0571209,0.0571721,0.0571721,0.0572746,0.057377,0.0586578,0.058709,0.0588627,0.0589139,0.0590164,0.0590676,0.0591189,0.0591701,0.0610143,0.061373,0.061373,0.061373,0.0614242,0.0615779";
  ""].

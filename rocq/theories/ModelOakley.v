(** * Model of the test function of Oakley and O'Hagan (src/SALib/test_functions/oakley2004.py). *)
From Coq Require Import Reals List Arith ZArith.
From Verif Require Import Base Stats.
Import ListNotations.
Local Open Scope R_scope.

(** [a @ b] of two vectors: ValueError for different lengths. *)
Definition matvec (a b : list R) : result R :=
  if (length a =? length b)%nat then Ok (Rsum (map2 Rmult a b)) else Err ValueError.

(** One value, oakley2004.py:25. *)
Definition oakley_row (a1 a2 a3 : list R) (M : list (list R)) (x : list R) : result R :=
  do p <- matvec a1 x ;;
  do q <- matvec a2 (map sin x) ;;
  do r <- matvec a3 (map cos x) ;;
  do Mx <- mapM (fun m => matvec m x) M ;;
  do t <- matvec x Mx ;;
  Ok (p + q + r + t).

(** evaluate, oakley2004.py:6-27; unpacking [A] needs exactly three rows. *)
Definition oakley_evaluate (X A M : list (list R)) : result (list R) :=
  match A with
  | [a1; a2; a3] => mapM (oakley_row a1 a2 a3 M) X
  | _ => Err ValueError
  end.

(** The coefficients given in the file: M in units of 10^-5 (oakley2004.py:31-259), A in units of 10^-4 (261-315). *)
Definition oakley_M_units : list (list Z) :=
  ([ [(-2250); (-18500); 13400; 36900; 17200; 13700; (-44000); (-8140); 71300; (-44400); 50400; (-2410); (-4590); 21700; 5590]
   ; [25700; 5380; 25800; 23800; (-59100); (-8160); (-28700); 41600; 49800; 8390; (-11100); 3320; (-14000); (-3100); (-22300)]
   ; [(-5600); 19500; 9550; (-28600); (-14400); 22400; 14500; 29000; 23100; (-31900); (-29000); (-21000); 43100; 2440; 4490]
   ; [66400; 43100; 29900; (-16200); (-31500); (-39000); 17700; 5800; 17200; 13500; (-35300); 25100; (-1880); 36500; (-32500)]
   ; [(-12100); 12500; 10700; 4660; (-21700); 19500; (-6550); 2440; (-9680); 19400; 33400; 31300; (-8360); (-25300); 37300]
   ; [(-28400); (-32800); (-10500); (-22100); (-13700); (-14400); (-11500); 22400; (-3040); (-51500); 1730; 3900; 36100; 30900; 5000]
   ; [(-7790); 375; 88700; (-26600); (-7930); (-4270); (-18700); (-35600); (-17500); 8870; 40000; (-5600); 13700; 21500; (-1130)]
   ; [(-9230); 59200; 3130; (-3310); (-24300); (-9980); 3450; 9510; (-33800); 639; (-61200); 8130; 88700; 14300; 14800]
   ; [(-13200); 52900; 12700; 4510; 58400; 37300; 11400; (-29500); (-57000); 46300; (-9410); 14000; (-38600); (-44900); (-14600)]
   ; [5810; (-32300); 9310; 7240; (-56900); 52600; 23700; (-1180); 7180; 7830; (-13400); 22700; 14400; (-45200); (-55600)]
   ; [66100; 34600; 14100; 51900; (-28000); (-16000); (-6840); (-20400); 6970; 23100; (-4440); (-16500); 21600; 427; (-8740)]
   ; [31600; (-2760); 13400; 13500; 5400; (-17400); 17500; 6030; (-17900); (-31100); (-25400); 2580; (-43000); (-62300); (-3400)]
   ; [(-29000); 3410; 3490; (-12100); 2600; (-33500); (-41400); 5320; (-27100); (-2630); 41000; 26600; 15600; (-18700); 1990]
   ; [(-24400); (-44100); 1260; 24900; 7110; 24600; 17500; 853; 25100; (-14700); (-8460); 36900; (-30000); 11000; (-75700)]
   ; [4150; (-26000); 46400; (-36100); (-95000); (-16500); 309; 5280; 22500; 38400; 45600; (-18600); 823; 16700; 16000] ])%Z.
Definition oakley_A_units : list (list Z) :=
  ([ [118; 456; 2297; 393; 1177; 3865; 3897; 6061; 6159; 4005; 10741; 11474; 7880; 11242; 11982]
   ; [4341; 887; 512; 3233; 1489; 10360; 9892; 9672; 8977; 8083; 18426; 24712; 23946; 20045; 22621]
   ; [1044; 2057; 774; 2730; 1253; 7526; 8570; 10331; 8388; 7970; 22145; 20382; 24004; 20541; 19845] ])%Z.
Definition oakley_M : list (list R) := map (map (fun z => IZR z / 100000)) oakley_M_units.
Definition oakley_A : list (list R) := map (map (fun z => IZR z / 10000)) oakley_A_units.

(** The standard deviation of the normal inputs (mean 0), oakley2004.py:317-326, and the first-order indices that the file quotes as analytic, in units
    of 10^-6 (337-355). *)
Definition oakley_sd : R := 835 / 1000.
Definition oakley_quoted_units : list Z := [1560; 186; 1307; 3045; 2905; 23035; 24151; 26517; 46036; 14945; 101823; 135708; 101989; 105169; 122818]%Z.
Definition oakley_quoted : list R := map (fun z => IZR z / 1000000) oakley_quoted_units.

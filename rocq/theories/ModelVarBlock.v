(* Inverse transforms of the variable blocks: frame/PassGroup.go:16-61,
   108-436, and the transform pointers they look at, frame/hfmetadata.go:95-108.

   Simplifications, besides those of ModelDCT.v:
   - AFV_BASIS holds the decimal numbers of the source text, not their float32
     roundings;
   - copy on two row slices panics when a bound exceeds the length of the row
     (Go would compare with its capacity);
   - one component of one block at a time, the five scratch matrices being
     passed in and returned. *)
From Coq Require Import ZArith List Bool Reals.
From Verif Require Import GoBase GoLoop ModelUtil ModelDCT.
Import ListNotations.
Open Scope Z_scope.

Local Notation "x <o- m ;; k" := (obind m (fun x => k)) (at level 61, m at next level, right associativity).

(* frame/PassGroup.go:13-62, AFV_BASIS, in units of 10^-19 *)
Definition AFV_DIGITS : list (list Z) := [
  [2500000000000000000; 2500000000000000000; 2500000000000000000; 2500000000000000000; 2500000000000000000; 2500000000000000000; 2500000000000000000; 2500000000000000000; 2500000000000000000; 2500000000000000000; 2500000000000000000; 2500000000000000000; 2500000000000000000; 2500000000000000000; 2500000000000000000; 2500000000000000000];
  [8769029297991420000; 2206518106944235000; (-1014005039375376300); (-1014005039375375000); 2206518106944236000; (-1014005039375377700); (-1014005039375377200); (-1014005039375376300); (-1014005039375375800); (-1014005039375376900); (-1014005039375375000); (-1014005039375376800); (-1014005039375376800); (-1014005039375375900); (-1014005039375376300); (-1014005039375374100)];
  [0; 0; 4067007583026075500; 4444481661973444500; 0; 0; 1957439937204293600; 2929100136981264000; (-4067007583026071600); (-1957439937204287200); 0; 1137907446044809100; (-4444481661973438400); (-2929100136981263600); (-1137907446044814000); 0];
  [0; 0; (-2125574805828874800); 3085497062849767000; 0; 4706702258572536000; (-1621205195722993000); 0; (-2125574805828704700); (-1621205195722832700); (-4706702258572527700); (-1464291867126764000); 3085497062849487000; 0; (-1464291867126653600); 4251149611657548000];
  [0; (-7071067811865474000); 0; 0; 7071067811865476000; 0; 0; 0; 0; 0; 0; 0; 0; 0; 0; 0];
  [(-4105377591765233000); 6235485373547691000; (-643507165794627400); (-643507165794626600); 6235485373547694000; (-643507165794628400); (-643507165794628000); (-643507165794627400); (-643507165794627200); (-643507165794627900); (-643507165794626600); (-643507165794627700); (-643507165794627700); (-643507165794627300); (-643507165794627400); (-643507165794626000)];
  [0; 0; (-4517556589999482000); 1585450355184006300; 0; (-403851516082220200); 74182263792423875; 3935103426921016700; (-4517556589999463500); 74182263792443510; 1107416575309343000; 829816309488205100; 1585450355183970500; 3935103426921022000; 829816309488214000; (-4517556589999479600)];
  [0; 0; (-3046847507248690000); 5112616136591823000; 0; 0; (-2904801297289980000); (-657870154914280400); 3046847507248840000; 2904801297290076000; 0; (-2388977352334460400); (-5112616136592012000); 657870154914254500; 2388977352334546700; 0];
  [0; 0; 3017929516615495000; 2579236279634118400; 0; 1627234014286620400; 952002265347503700; 0; 3017929516615503000; 952002265347505500; (-1627234014286617300); (-3531238544981629700); 2579236279634129500; 0; (-3531238544981624000); (-6035859033230976000)];
  [0; 0; 4082482904638627400; 0; 0; 0; 0; (-4082482904638628000); (-4082482904638635000); 0; 0; (-4082482904638629600); 0; 4082482904638634000; 4082482904638630000; 0];
  [0; 0; 1747866975480809000; 812611176717539000; 0; 0; (-3675398009862027000); (-3078822139579090000); (-1747866975480813500); 3675398009862011000; 0; 4826689115059883000; (-812611176717503900); 3078822139579030500; (-4826689115059858400); 0];
  [0; 0; (-2110560104933578400); 1856718091610980200; 0; 0; 4921585901373873300; (-3852501370925191500); 2110560104933580600; (-4921585901373890500); 0; 1741941265991621700; (-1856718091610990400); 3852501370925211000; (-1741941265991621000); 0];
  [0; 0; (-1426608480880726400); (-3416446842253372000); 0; 7367497537172237000; 2462710772207514800; (-857401903551930600); (-1426608480880734400); 2462710772207513700; 1488339922711356700; (-476868035022925100); (-3416446842253373000); (-857401903551926700); (-476868035022928040); (-1426608480880724200)];
  [0; 0; (-1381354035075858500); 3302282550303788000; 0; 875511500058708400; (-794670660590957300); (-4613374887461511000); (-1381354035075829400); (-794670660591026100); 4972464710953508600; 1253805944856366300; 3302282550303805000; (-4613374887461554000); 1253805944856431500; (-1381354035075845200)];
  [0; 0; (-1743760259965106700); 702790691196284000; 0; (-2921026642334881000); 3623817333531167000; 0; (-1743760259965108000); 3623817333531164600; 2921026642334878500; (-4326608024727445000); 702790691196281800; 0; (-4326608024727457000); 3487520519930226700];
  [0; 0; 1135498731499433700; (-741750459581035500); 0; 1940289303259434300; (-4351904965232280000); 2191868483885746600; 1135498731499425700; (-4351904965232251000); 5550443808910661000; (-2546827712406646300); (-741750459581023300); 2191868483885728000; (-2546827712406641300); 1135498731499429000]].
Definition AFV_BASIS : list (list R) := map (map (fun z => (IZR z / IZR (10 ^ 19))%R)) AFV_DIGITS.

(* copy(dest[o:o+w], src[i:i+w]) *)
Definition copyRow (dest src : list R) (o i : Z) (w : nat) : Outcome (list R) :=
  if (o <? 0) || (Z.of_nat (length dest) <? o + Z.of_nat w) || (i <? 0) || (Z.of_nat (length src) <? i + Z.of_nat w) then Panic
  else Ok (firstn (Z.to_nat o) dest ++ firstn w (skipn (Z.to_nat i) src) ++ skipn (Z.to_nat o + w) dest).
(* frame/PassGroup.go:276-283 and 432-436, layBlock; points are (Y, X) *)
Definition layBlock (block buffer : list (list R)) (inPos outPos : Z * Z) (height width : nat) : Outcome (list (list R)) :=
  eachRow height (fun s d => copyRow d s (snd outPos) (snd inPos) width) block buffer (fst inPos) (fst outPos).

(* frame/PassGroup.go:410-430, auxDCT2 *)
Definition auxDCT2 (coeffs result : list (list R)) (p ps : Z * Z) (s : Z) : Outcome (list (list R)) :=
  result <o- layBlock coeffs result p ps 8 8 ;;
  let num := Z.quot s 2 in
  oloop (Z.to_nat num) 0 (fun iy result =>
    oloop (Z.to_nat num) 0 (fun ix result =>
      let iy := Z.of_nat iy in let ix := Z.of_nat ix in
      c00 <o- rget2 coeffs (fst p + iy) (snd p + ix) ;;
      c01 <o- rget2 coeffs (fst p + iy) (snd p + ix + num) ;;
      c10 <o- rget2 coeffs (fst p + iy + num) (snd p + ix) ;;
      c11 <o- rget2 coeffs (fst p + iy + num) (snd p + ix + num) ;;
      result <o- rset2 result (fst ps + iy * 2) (snd ps + ix * 2) (c00 + c01 + c10 + c11)%R ;;
      result <o- rset2 result (fst ps + iy * 2) (snd ps + ix * 2 + 1) (c00 + c01 - c10 - c11)%R ;;
      result <o- rset2 result (fst ps + iy * 2 + 1) (snd ps + ix * 2) (c00 - c01 + c10 - c11)%R ;;
      rset2 result (fst ps + iy * 2 + 1) (snd ps + ix * 2 + 1) (c00 - c01 - c10 + c11)%R) result) result.

(* for iy < 4 { for ix from (1 if iy = 0, else 0) to w { body } } *)
Definition exceptFirst {S} (w : nat) (body : Z -> Z -> S -> Outcome S) (s : S) : Outcome S :=
  oloop 4 0 (fun iy s =>
    let startX := if (iy =? 0)%nat then 1%nat else 0%nat in
    oloop (w - startX) startX (fun ix s => body (Z.of_nat iy) (Z.of_nat ix) s) s) s.

(* frame/PassGroup.go:162-187, METHOD_DCT8_4; returns buffer and scratchBlock[0..2] *)
Definition invertDCT8_4 (coeffs buffer : list (list R)) (ppg ppf : Z * Z) (s0 s1 s2 : list (list R))
    : Outcome (list (list R) * list (list R) * list (list R) * list (list R)) :=
  coeff0 <o- rget2 coeffs (fst ppg) (snd ppg) ;;
  coeff1 <o- rget2 coeffs (fst ppg + 1) (snd ppg) ;;
  oloop 2 0 (fun x st =>
    let '(buffer, s0, s1, s2) := st in
    let x' := Z.of_nat x in
    s0 <o- rset2 s0 0 0 (if (x =? 0)%nat then coeff0 + coeff1 else coeff0 - coeff1)%R ;;
    s0 <o- exceptFirst 8 (fun iy ix s0 => v <o- rget2 coeffs (fst ppg + x' + iy * 2) (snd ppg + ix) ;; rset2 s0 iy ix v) s0 ;;
    r <o- InverseDCT2D s0 buffer (0, 0) (fst ppf, snd ppf + Z.shiftl x' 2) 4 8 s1 s2 true ;;
    let '(buffer, s1, s2) := r in Ok (buffer, s0, s1, s2)) (buffer, s0, s1, s2).
(* frame/PassGroup.go:189-214, METHOD_DCT4_8 *)
Definition invertDCT4_8 (coeffs buffer : list (list R)) (ppg ppf : Z * Z) (s0 s1 s2 : list (list R))
    : Outcome (list (list R) * list (list R) * list (list R) * list (list R)) :=
  coeff0 <o- rget2 coeffs (fst ppg) (snd ppg) ;;
  coeff1 <o- rget2 coeffs (fst ppg + 1) (snd ppg) ;;
  oloop 2 0 (fun y st =>
    let '(buffer, s0, s1, s2) := st in
    let y' := Z.of_nat y in
    s0 <o- rset2 s0 0 0 (if (y =? 0)%nat then coeff0 + coeff1 else coeff0 - coeff1)%R ;;
    s0 <o- exceptFirst 8 (fun iy ix s0 => v <o- rget2 coeffs (fst ppg + y' + iy * 2) (snd ppg + ix) ;; rset2 s0 iy ix v) s0 ;;
    r <o- InverseDCT2D s0 buffer (0, 0) (fst ppf + Z.shiftl y' 2, snd ppf) 4 8 s1 s2 false ;;
    let '(buffer, s1, s2) := r in Ok (buffer, s0, s1, s2)) (buffer, s0, s1, s2).

(* frame/PassGroup.go:228-237, METHOD_DCT2; returns buffer and scratchBlock[0..1] *)
Definition invertDCT2 (coeffs buffer : list (list R)) (ppg ppf : Z * Z) (s0 s1 : list (list R))
    : Outcome (list (list R) * list (list R) * list (list R)) :=
  s0 <o- auxDCT2 coeffs s0 ppg (0, 0) 2 ;;
  s1 <o- auxDCT2 s0 s1 (0, 0) (0, 0) 4 ;;
  buffer <o- auxDCT2 s1 buffer (0, 0) ppf 8 ;;
  Ok (buffer, s0, s1).

(* frame/PassGroup.go:238-264, METHOD_HORNUSS *)
Definition invertHornuss (coeffs buffer : list (list R)) (ppg ppf : Z * Z) (s0 s1 : list (list R))
    : Outcome (list (list R) * list (list R) * list (list R)) :=
  s1 <o- auxDCT2 coeffs s1 ppg (0, 0) 2 ;;
  s0 <o- oloop 2 0 (fun y s0 => oloop 2 0 (fun x s0 =>
    let y := Z.of_nat y in let x := Z.of_nat x in
    blockLF <o- rget2 s1 y x ;;
    residual <o- exceptFirst 4 (fun iy ix residual =>
      v <o- rget2 coeffs (fst ppg + y + iy * 2) (snd ppg + x + ix * 2) ;; Ok (residual + v)%R) 0%R ;;
    s0 <o- rset2 s0 (4 * y + 1) (4 * x + 1) (blockLF - residual * (1 / 16))%R ;;
    s0 <o- oloop 4 0 (fun iy s0 => oloop 4 0 (fun ix s0 =>
      let iy := Z.of_nat iy in let ix := Z.of_nat ix in
      if (ix =? 1) && (iy =? 1) then Ok s0
      else
        v <o- rget2 coeffs (fst ppg + y + iy * 2) (snd ppg + x + ix * 2) ;;
        mid <o- rget2 s0 (4 * y + 1) (4 * x + 1) ;;
        rset2 s0 (4 * y + iy) (x * 4 + ix) (v + mid)%R) s0) s0 ;;
    v <o- rget2 coeffs (fst ppg + y + 2) (snd ppg + x + 2) ;;
    mid <o- rget2 s0 (4 * y + 1) (4 * x + 1) ;;
    rset2 s0 (4 * y) (4 * x) (v + mid)%R) s0) s0 ;;
  buffer <o- layBlock s0 buffer (0, 0) ppf 8 8 ;;
  Ok (buffer, s0, s1).

(* A transform pointer: one of the global variables of transformtype.go:59-85,
   by its transform number, or the copy that one call of placeBlock made *)
Inductive TTPtr := Global (ttType : Z) | Copy (call : nat) (ttType : Z).
(* pointer comparison with a global variable *)
Definition is_global (tt : TTPtr) (t : Z) : bool := match tt with Global t' => t' =? t | Copy _ _ => false end.
(* frame/hfmetadata.go:95-108: the pointer stored in dctSelect is the address
   of the parameter block of this call, a variable of its own *)
Definition placedPointer (call : nat) (ttType : Z) : TTPtr := Copy call ttType.

(* frame/PassGroup.go:285-408, invertAFV; returns buffer and scratchBlock[0..3] *)
Definition invertAFV (coeffs buffer : list (list R)) (tt : TTPtr) (ppg ppf : Z * Z) (s0 s1 s2 s3 : list (list R))
    : Outcome (list (list R) * list (list R) * list (list R) * list (list R) * list (list R)) :=
  a <o- rget2 coeffs (fst ppg) (snd ppg) ;;
  b <o- rget2 coeffs (fst ppg + 1) (snd ppg) ;;
  c <o- rget2 coeffs (fst ppg) (snd ppg + 1) ;;
  s0 <o- rset2 s0 0 0 ((a + b + c) * 4)%R ;;
  s0 <o- exceptFirst 4 (fun iy ix s0 => v <o- rget2 coeffs (fst ppg + iy * 2) (snd ppg + ix * 2) ;; rset2 s0 iy ix v) s0 ;;
  let flipY := if is_global tt 16 || is_global tt 17 then 1 else 0 in
  let flipX := if is_global tt 15 || is_global tt 17 then 1 else 0 in
  s1 <o- oloop 4 0 (fun iy s1 => oloop 4 0 (fun ix s1 =>
    sample <o- oloop 16 0 (fun j sample =>
      v <o- rget2 s0 (Z.shiftr (Z.of_nat j) 2) (Z.land (Z.of_nat j) 3) ;;
      w <o- rget2 AFV_BASIS (Z.of_nat j) (Z.of_nat iy * 4 + Z.of_nat ix) ;;
      Ok (sample + v * w)%R) 0%R ;;
    rset2 s1 (Z.of_nat iy) (Z.of_nat ix) sample) s1) s1 ;;
  buffer <o- oloop 4 0 (fun iy buffer => oloop 4 0 (fun ix buffer =>
    let iy := Z.of_nat iy in let ix := Z.of_nat ix in
    let ypos := if flipY =? 1 then 3 - iy else iy in
    let xpos := if flipX =? 1 then 3 - ix else ix in
    v <o- rget2 s1 ypos xpos ;;
    rset2 buffer (fst ppf + flipY * 4 + iy) (snd ppf + flipX * 4 + ix) v) buffer) buffer ;;
  s0 <o- rset2 s0 0 0 (a + b - c)%R ;;
  s0 <o- exceptFirst 4 (fun iy ix s0 => v <o- rget2 coeffs (fst ppg + iy * 2) (snd ppg + ix * 2 + 1) ;; rset2 s0 iy ix v) s0 ;;
  r <o- InverseDCT2D s0 s1 (0, 0) (0, 0) 4 4 s2 s3 false ;;
  let '(s1, s2, s3) := r in
  buffer <o- oloop 4 0 (fun iy buffer => oloop 4 0 (fun ix buffer =>
    let iy := Z.of_nat iy in let ix := Z.of_nat ix in
    let xx := if flipX =? 1 then 0 else 4 in
    v <o- rget2 s1 ix iy ;;
    rset2 buffer (fst ppf + flipY * 4 + iy) (snd ppf + xx + ix) v) buffer) buffer ;;
  s0 <o- rset2 s0 0 0 (a - b)%R ;;
  s0 <o- exceptFirst 8 (fun iy ix s0 => v <o- rget2 coeffs (fst ppg + 1 + iy * 2) (snd ppg + ix) ;; rset2 s0 iy ix v) s0 ;;
  r <o- InverseDCT2D s0 s1 (0, 0) (0, 0) 4 8 s2 s3 false ;;
  let '(s1, s2, s3) := r in
  buffer <o- oloop 4 0 (fun iy buffer => oloop 8 0 (fun ix buffer =>
    let iy := Z.of_nat iy in let ix := Z.of_nat ix in
    let yy := if flipY =? 1 then 0 else 4 in
    v <o- rget2 s1 iy ix ;;
    rset2 buffer (fst ppf + yy + iy) (snd ppf + ix) v) buffer) buffer ;;
  Ok (buffer, s0, s1, s2, s3).

(* frame/PassGroup.go:157-270, the switch on the transform method; height and
   width are tt.getPixelSize() *)
Definition invertBlock (method : Z) (tt : TTPtr) (height width : nat) (coeffs buffer : list (list R)) (ppg ppf : Z * Z)
    (s0 s1 s2 s3 : list (list R)) : Outcome (list (list R)) :=
  if method =? 0 then r <o- InverseDCT2D coeffs buffer ppg ppf height width s0 s1 false ;; Ok (fst (fst r))
  else if method =? 4 then r <o- invertDCT8_4 coeffs buffer ppg ppf s0 s1 s2 ;; Ok (fst (fst (fst r)))
  else if method =? 5 then r <o- invertDCT4_8 coeffs buffer ppg ppf s0 s1 s2 ;; Ok (fst (fst (fst r)))
  else if method =? 6 then r <o- invertAFV coeffs buffer tt ppg ppf s0 s1 s2 s3 ;; Ok (fst (fst (fst (fst r))))
  else if method =? 1 then r <o- invertDCT2 coeffs buffer ppg ppf s0 s1 ;; Ok (fst (fst r))
  else if method =? 3 then r <o- invertHornuss coeffs buffer ppg ppf s0 s1 ;; Ok (fst (fst r))
  else if method =? 2 then Panic
  else Err.

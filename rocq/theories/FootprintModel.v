(** Model of [src/lightcurvelynx/astro_utils/detector_footprint.py] (class DetectorFootprint, without plotting), with the parts of
    astropy, wcslib and the regions package it calls.  Floats are reals; a pixel position that is not a number is [None]. *)
From Coq Require Import Reals String List Bool Arith ZArith Lia Lra.
From Verif Require Import Base BaseFacts RealBase.
Import ListNotations.
Open Scope R_scope.

Definition rad (d : R) : R := d * PI / 180.
Definition deg (r : R) : R := r * 180 / PI.
(** [numpy.arctan2] *)
Definition atan2 (y x : R) : R :=
  if Rltb 0 x then atan (y / x)
  else if Rltb x 0 then (if Rleb 0 y then atan (y / x) + PI else atan (y / x) - PI)
  else if Rltb 0 y then PI / 2 else if Rltb y 0 then - (PI / 2) else 0.

(** ** Sky offset frames *)
Definition vec := (R * R * R)%type.
(** A position in degrees as a unit vector. *)
Definition unit_vec (ra dec : R) : vec := (cos (rad dec) * cos (rad ra), cos (rad dec) * sin (rad ra), sin (rad dec)).
(** [astropy.coordinates.matrix_utilities.rotation_matrix], applied to a vector. *)
Definition rot_x (a : R) (v : vec) : vec := let '(x, y, z) := v in (x, cos a * y + sin a * z, - sin a * y + cos a * z).
Definition rot_y (a : R) (v : vec) : vec := let '(x, y, z) := v in (cos a * x - sin a * z, y, sin a * x + cos a * z).
Definition rot_z (a : R) (v : vec) : vec := let '(x, y, z) := v in (cos a * x + sin a * y, - sin a * x + cos a * y, z).
(** astropy [reference_to_skyoffset]: R_x(-rotation) R_y(-lat) R_z(lon). *)
Definition to_offset (lon lat rot : R) (v : vec) : vec := rot_x (- rot) (rot_y (- lat) (rot_z lon v)).
(** Lines 83-131 [rotate_to_center], one point: longitude and latitude in degrees in the frame of the pointing. *)
Definition rotate_to_center (ra dec cra cdec : R) (rotation : option R) : R * R :=
  let r := match rotation with None => 0 | Some r => r end in
  let '(x, y, z) := to_offset (rad cra) (rad cdec) (rad r) (unit_vec ra dec) in
  let lon := deg (atan2 y x) in
  let lat := deg (atan2 z (sqrt (x * x + y * y))) in
  ((if Rltb 180 lon then lon - 360 else lon), (if Rltb 90 lat then lat - 180 else lat)).

(** ** The default WCS (lines 33-40): TAN projection at (0, 0), reference pixel 0.5 (counted from 1), [ps] degrees per pixel.  A
    point 90 degrees or more away has no projection: nan. *)
Definition tan_pixel (ps lon lat : R) : option (R * R) :=
  let '(x, y, z) := unit_vec lon lat in
  if Rltb 0 x then Some (deg (y / x) / ps + (1 / 2 - 1), deg (z / x) / ps + (1 / 2 - 1)) else None.
(** A WCS: given by the user, or the default one. *)
Definition wcs := R -> R -> option (R * R).

(** ** Regions *)
Inductive pixreg :=
| PixRect (cx cy width height angle : R)                                   (* RectanglePixelRegion; angle in radians *)
| PixOther (test : R -> R -> bool) (ixmin ixmax iymin iymax : Z).          (* any other pixel region, with its bounding box *)
Inductive region :=
| SkyRect (width height angle : R)           (* RectangleSkyRegion centred on (0, 0); sizes and angle in degrees *)
| Pix (p : pixreg).
(** regions [contains]; nan is outside. *)
Definition pix_contains (p : pixreg) (q : option (R * R)) : bool :=
  match q with
  | None => false
  | Some (x, y) =>
      match p with
      | PixRect cx cy w h a =>
          let dx := x - cx in
          let dy := y - cy in
          (Rltb (Rabs (cos a * dx + sin a * dy)) (w * (1 / 2)) && Rltb (Rabs (sin a * dx - cos a * dy)) (h * (1 / 2)))%bool
      | PixOther test _ _ _ _ => test x y
      end
  end.
Definition floor (x : R) : Z := Int_part x.
Definition ceil (x : R) : Z := (- Int_part (- x))%Z.
(** regions [bounding_box]: (ixmin, ixmax, iymin, iymax). *)
Definition bounding_box (p : pixreg) : Z * Z * Z * Z :=
  match p with
  | PixRect cx cy w h a =>
      let w2 := w / 2 in
      let h2 := h / 2 in
      let dx := Rmax (Rabs (w2 * cos a - h2 * sin a)) (Rabs (w2 * cos a + h2 * sin a)) in
      let dy := Rmax (Rabs (w2 * sin a + h2 * cos a)) (Rabs (w2 * sin a - h2 * cos a)) in
      (floor (cx - dx + 1 / 2), ceil (cx + dx + 1 / 2), floor (cy - dy + 1 / 2), ceil (cy + dy + 1 / 2))
  | PixOther _ a b c d => (a, b, c, d)
  end.
(** regions [RectangleSkyRegion.to_pixel]: the pixel scale and the direction of north are measured by an offset of one arc second to
    the north of the centre. *)
Definition arcsec : R := 1 / 3600.
Definition sky_to_pixel_region (w : wcs) (width height angle : R) : result pixreg :=
  match w 0 0, w 0 arcsec with
  | Some (cx, cy), Some (nx, ny) =>
      let scale := arcsec / sqrt ((nx - cx) * (nx - cx) + (ny - cy) * (ny - cy)) in
      let north := atan2 (ny - cy) (nx - cx) in
      Ok (PixRect cx cy (width / scale) (height / scale) (rad angle + (north - PI / 2)))
  | _, _ => Err ValueError
  end.

(** ** DetectorFootprint *)
Record dfoot := mkFoot { df_region : pixreg; df_wcs : wcs }.
(** Lines 26-52 [__init__]. *)
Definition foot_make (r : region) (w : option wcs) (pixel_scale : option R) : result dfoot :=
  bind (match w with
        | Some w => Ok w
        | None => match pixel_scale with
                  | None => Err ValueError
                  | Some ps => if Rleb ps 0 then Err ValueError else Ok (tan_pixel ps)
                  end
        end) (fun w =>
  bind (match r with SkyRect wd ht a => sky_to_pixel_region w wd ht a | Pix p => Ok p end) (fun p =>
  let '(x1, x2, y1, y2) := bounding_box p in
  if ((x1 <=? 0) && (0 <=? x2) && (y1 <=? 0) && (0 <=? y2))%Z then Ok (mkFoot p w) else Err ValueError)).
(** Lines 54-80 [from_rect]; RectangleSkyRegion refuses sizes that are not positive. *)
Definition from_rect (width height : R) (w : option wcs) (pixel_scale : option R) : result dfoot :=
  if (Rleb width 0 || Rleb height 0)%bool then Err ValueError
  else foot_make (SkyRect width height 0) w pixel_scale.
(** Lines 133-159 [sky_to_pixel] and the region test of [contains], one point and pointing. *)
Definition foot_test (f : dfoot) (ra dec cra cdec : R) (rotation : option R) : bool :=
  let '(lon, lat) := rotate_to_center ra dec cra cdec rotation in
  pix_contains (df_region f) (df_wcs f lon lat).
(** Lines 161-222 [contains]: a number or a one-dimensional array. *)
Inductive arg := Num (r : R) | Arr (l : list R).
Definition atleast_1d (a : arg) : list R := match a with Num r => [r] | Arr l => l end.
(** Lines 191-212: an array of one element is repeated. *)
Definition fit (n : nat) (l : list R) : result (list R) :=
  if (length l =? n)%nat then Ok l
  else match l with [x] => Ok (repeat x n) | _ => Err ValueError end.
Inductive answer := ABool (b : bool) | AList (l : list bool).
Fixpoint zip_test (f : dfoot) (ra dec cra cdec : list R) (rot : option (list R)) : list bool :=
  match ra, dec, cra, cdec with
  | a :: ra', b :: dec', c :: cra', d :: cdec' =>
      foot_test f a b c d (option_map (fun l => hd 0 l) rot) :: zip_test f ra' dec' cra' cdec' (option_map (fun l => tl l) rot)
  | _, _, _, _ => []
  end.
Definition foot_contains (f : dfoot) (ra dec cra cdec : arg) (rotation : option arg) : result answer :=
  let ra1 := atleast_1d ra in
  let dec1 := atleast_1d dec in
  let n := length ra1 in
  if negb (n =? length dec1)%nat then Err ValueError
  else
    bind (fit n (atleast_1d cra)) (fun c =>
    bind (fit n (atleast_1d cdec)) (fun d =>
    bind (match rotation with None => Ok None | Some r => bind (fit n (atleast_1d r)) (fun l => Ok (Some l)) end) (fun r =>
    let out := zip_test f ra1 dec1 c d r in
    match ra with
    | Num _ => match out with b :: _ => Ok (ABool b) | [] => Err IndexError end
    | Arr _ => Ok (AList out)
    end))).

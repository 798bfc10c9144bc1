(** Model of src/lightcurvelynx/utils/plotting.py lines 7-240, and of lightcurve_template_model.py lines 347-385 [LightcurveData.plot_lightcurves].  What matplotlib's axes hold is a list of artists with the data they show; line styles, markers, transparency and the pass-through
    keyword arguments are left out.  Arrays are one-dimensional numpy arrays (lists of numbers); error bars are not negative (matplotlib refuses negative ones). *)
From Coq Require Import Reals String List Bool Arith.
From Verif Require Import Base RealBase SedModel TemplateModel.
Import ListNotations.
Open Scope list_scope.
Open Scope nat_scope.

Inductive artist :=
| Curve (label color : string) (pts : list (R * R))                 (* ax.plot: the line of a model *)
| Points (label color : string) (pts : list (R * R))                (* ax.plot: the samples *)
| ErrorBars (label color : string) (pts : list (R * R * R))         (* ax.errorbar *)
| Series (label : string) (pts : list (R * R))                      (* ax.plot without a colour *)
| Image (rows : list (list R))                                      (* ax.imshow *)
| Text (x y : nat) (v : R).                                         (* ax.text *)
Record axes := mkAxes { ax_artists : list artist; ax_title : option string; ax_xlabel : string; ax_ylabel : string; ax_legend : bool;
  ax_xticks : option (list (nat * string)); ax_yticks : option (list (nat * string)) }.
Definition new_axes : axes := mkAxes [] None "" "" false None None.
Definition draw (a : artist) (x : axes) : axes := mkAxes (ax_artists x ++ [a]) (ax_title x) (ax_xlabel x) (ax_ylabel x) (ax_legend x) (ax_xticks x) (ax_yticks x).
Definition with_title (t : option string) (x : axes) : axes :=
  match t with None => x | Some _ => mkAxes (ax_artists x) t (ax_xlabel x) (ax_ylabel x) (ax_legend x) (ax_xticks x) (ax_yticks x) end.
Definition with_labels (l m : string) (x : axes) : axes := mkAxes (ax_artists x) (ax_title x) l m (ax_legend x) (ax_xticks x) (ax_yticks x).
Definition with_legend (b : bool) (x : axes) : axes := if b then mkAxes (ax_artists x) (ax_title x) (ax_xlabel x) (ax_ylabel x) true (ax_xticks x) (ax_yticks x) else x.

(** A drawing that can fail keeps what was drawn before: the axes and the error, if any. *)
Definition drawing := (axes * option err)%type.
Definition seq_draw {A} (f : axes -> A -> drawing) (l : list A) (x : axes) : drawing :=
  fold_left (fun d a => match d with (x, None) => f x a | _ => d end) l (x, None).
(** [ax.plot(x, y)] of two arrays: ValueError unless they are equally long. *)
Definition plot_xy (mk : list (R * R) -> artist) (a b : list R) (x : axes) : drawing :=
  if (length a =? length b) then (draw (mk (combine a b)) x, None) else (x, Some ValueError).
(** [array[mask]]. *)
Definition masked {A} (mask : list bool) (l : list A) : list A := map snd (filter fst (combine mask l)).

(** Lines 89-93: [colors[i]]. *)
Definition colors : list string := ["b"; "g"; "r"; "c"; "m"; "y"; "k"]%string.
Definition default_colormap (fs : list string) : result (dict string) :=
  fold_res (fun d fi => match nth_error colors (snd fi) with Some c => Ok (dset (fst fi) c d) | None => Err IndexError end) [] (combine fs (seq 0 (length fs))).
(** Lines 95-130: one filter.  [mask] stands for [filters == filter]: [None] when [filters] is a list, whose comparison with a string is [False]; indexing with it gives an array
    of shape (0, n): [plot] draws lines without points (recorded as one), and [errorbar] refuses the error bars, whose shape does not match. *)
Definition plot_filter (fluxes times : list R) (fluxerrs : option (list R)) (model : option (dict (list R))) (colormap : dict string)
  (mask_of : string -> option (list bool)) (x : axes) (f : string) : drawing :=
  let pick (l : list R) := match mask_of f with Some m => masked m l | None => [] end in
  let model_part : drawing :=
    match model with
    | Some d => match dget f d with
                | None => (x, None)
                | Some ys => match dget "times"%string d with
                             | None => (x, Some KeyError)
                             | Some ts => match dget f colormap with
                                          | None => (x, Some KeyError)
                                          | Some c => plot_xy (Curve ("Model " ++ f)%string c) ts ys x
                                          end
                             end
                end
    | None => (x, None)
    end in
  match model_part with
  | (x, Some e) => (x, Some e)
  | (x, None) =>
      match dget f colormap with
      | None => (x, Some KeyError)
      | Some c =>
          match fluxerrs with
          | None => plot_xy (Points ("Sample " ++ f)%string c) (pick times) (pick fluxes) x
          | Some es => match mask_of f with
                       | Some _ => (draw (ErrorBars ("Sample " ++ f)%string c (combine (combine (pick times) (pick fluxes)) (pick es))) x, None)
                       | None => (x, Some ValueError)
                       end
          end
      end
  end.
(** Lines 7-140 [plot_lightcurves]; [ax]: the given axes, or none (a new pair of axes is made before anything is checked). *)
Definition plot_lightcurves (fluxes times : list R) (fluxerrs : option (list R)) (filters : option (list string)) (model : option (dict (list R)))
  (ax : option axes) (title : option string) (colormap : option (dict string)) : drawing :=
  let x := match ax with Some x => x | None => new_axes end in
  let n := length fluxes in
  if negb (length times =? n) then (x, Some ValueError)
  else if match filters with Some fs => negb (length fs =? n) | None => false end then (x, Some ValueError)
  else if match fluxerrs with Some es => negb (length es =? n) | None => false end then (x, Some ValueError)
  else
    let unique := match filters with Some fs => unique_names fs | None => ["None"%string] end in
    let mask_of f := match filters with Some fs => Some (map (fun g => String.eqb g f) fs) | None => None end in
    match match colormap with Some c => Ok c | None => default_colormap unique end with
    | Err e => (x, Some e)
    | Ok cm =>
        match seq_draw (plot_filter fluxes times fluxerrs model cm mask_of) unique x with
        | (x, Some e) => (x, Some e)
        | (x, None) => (with_legend (1 <? length unique) (with_labels "Time (MJD)" "Flux (nJy)" (with_title title x)), None)
        end
    end.

(** Lines 143-191 [plot_bandflux_lightcurves]: a single array is a dictionary with the one key "lightcurve". *)
Definition plot_bandflux (bandflux : dict (list R)) (times : option (list R)) (ax : option axes) (title : option string) : drawing :=
  let x := match ax with Some x => x | None => new_axes end in
  let step (d : (axes * option (list R)) * option err) (nc : string * list R) :=
    match d with
    | ((x, times), None) =>
        let ts := match times with Some ts => ts | None => map INR (seq 0 (length (snd nc))) end in
        let '(x', e) := plot_xy (Series (fst nc)) ts (snd nc) x in ((x', Some ts), e)
    | _ => d
    end in
  match fold_left step bandflux ((x, times), None) with
  | ((x, _), Some e) => (x, Some e)
  | ((x, _), None) => (with_legend (1 <? length bandflux) (with_labels "Time (days)" "Flux" (with_title title x)), None)
  end.

(** Lines 194-240 [plot_flux_spectrogram] for a T x N matrix.  [whole] is Python's [f"{round(v)}"], [tenth] its [round(v, 1)]. *)
Section Spectrogram.
Variables (whole : R -> string) (tenth : R -> R).
(** [l[::k]] *)
Definition every {A} (k : nat) (l : list A) : list A := map snd (filter (fun p => (fst p mod k =? 0)) (combine (seq 0 (length l)) l)).
Definition ticks (k : nat) (l : list R) : list (nat * string) := combine (every k (seq 0 (length l))) (every k (map whole l)).
Definition transpose (n : nat) (m : list (list R)) : list (list R) := map (fun j => map (fun row => nth j row 0%R) m) (seq 0 n).
Definition plot_spectrogram (flux : list (list R)) (n : nat) (times wavelengths : option (list R)) (ax : option axes) (title : option string) : axes :=
  let x := match ax with Some x => x | None => new_axes end in
  let img := transpose n flux in
  let x := draw (Image img) x in
  let x := with_title (Some (match title with None => "Flux Spectrogram" | Some t => t end)%string) x in
  let x := match times with None => x | Some ts => mkAxes (ax_artists x) (ax_title x) "Time (days)" (ax_ylabel x) (ax_legend x) (Some (ticks 4 ts)) (ax_yticks x) end in
  let x := match wavelengths with None => x | Some ws => mkAxes (ax_artists x) (ax_title x) (ax_xlabel x) "Wavelength (Angstrom)" (ax_legend x) (ax_xticks x) (Some (ticks 50 ws)) end in
  fold_left (fun x jr => fold_left (fun x iv => if ((fst iv mod 2 =? 1) && (fst jr mod 40 =? 20))%bool then draw (Text (fst iv) (fst jr) (tenth (snd iv))) x else x)
                           (combine (seq 0 (length (snd jr))) (snd jr)) x)
    (combine (seq 0 (length img)) img) x.
End Spectrogram.

(** consts.py lines 46-67 [lsst_filter_plot_colors]. *)
Definition lsst_colors : dict string :=
  [("u","purple"); ("g","blue"); ("r","green"); ("i","yellow"); ("z","orange"); ("y","red");
   ("LSST_u","purple"); ("LSST_g","blue"); ("LSST_r","green"); ("LSST_i","yellow"); ("LSST_z","orange"); ("LSST_y","red");
   ("F062","blue"); ("F087","purple"); ("F106","green"); ("F129","orange"); ("F146","gray"); ("F158","orangered"); ("F184","magenta"); ("F213","red")]%string.
(** lightcurve_template_model.py lines 362-385 [LightcurveData.plot_lightcurves]. *)
Definition plot_templates (lc : lcdata) (times : option (list R)) (ax : option axes) : axes :=
  let x := match ax with Some x => x | None => new_axes end in
  let x := fold_left (fun x fc =>
      let color := match dget (fst fc) lsst_colors with Some c => c | None => "black"%string end in
      match times with
      | None => draw (Curve (fst fc) color (snd fc)) x
      | Some ts => draw (Curve (fst fc) color (combine ts (map (interp (snd fc) 0 0) ts))) x
      end) (lc_curves lc) x in
  with_legend true (with_title (Some "Underlying Light Curves"%string) (with_labels "Time (days)" "Filter value (nJy)" x)).

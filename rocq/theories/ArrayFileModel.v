(** Numeric arrays in files and SEDs loaded from them: [src/lightcurvelynx/utils/io_utils.py] [read_numpy_data] (9-41),
    [write_numpy_data] (44-66), and [src/lightcurvelynx/models/static_sed_model.py] [StaticSEDModel.from_file] (73-95),
    [from_synphot] (97-142).
    Not modelled: element types other than floating point numbers (numpy writes text with 19 significant digits, which identifies a
    double, so numbers are kept exactly), NaN and infinities, directories, permissions. *)
From Coq Require Import Reals String Ascii List Bool Arith Lia Lra.
From Verif Require Import Base RealBase DownloadModel PassbandFileModel SedModel TemplateModel.
Import ListNotations.
Open Scope string_scope.
Open Scope list_scope.
Open Scope nat_scope.

(** ** numpy *)
(** An array: its shape and its entries, last axis fastest. *)
Record narr := mkN { n_dims : list nat; n_data : list R }.
Fixpoint chunks (r c : nat) (l : list R) : list (list R) :=
  match r with O => [] | S r' => firstn c l :: chunks r' c (skipn c l) end.
(** [a.T] of a 2-d array (other arrays are never transposed here). *)
Definition transpose (a : narr) : narr :=
  match n_dims a with
  | [r; c] => mkN [c; r] (flat_map (fun j => map (fun i => nth (i * c + j) (n_data a) 0%R) (seq 0 r)) (seq 0 c))
  | _ => a
  end.

(** ** Files *)
(** A line of text: a comment, or numbers with the character that separates them. *)
Inductive line := Comment | Cells (sep : ascii) (l : list R).
(** What a file holds: one array (.npy), named arrays (.npz), text, or anything else. *)
Inductive afile := ANpy (a : narr) | ANpz (d : dict narr) | AText (l : list line) | AOther.
Definition afiles : Type := path -> option afile.
Definition aput (p : path) (x : afile) (fs : afiles) : afiles :=
  fun q => if list_eq_dec string_dec q p then Some x else fs q.

(** [np.savetxt]: a 1-d array is written as one column; other than 1-d or 2-d arrays are a ValueError. *)
Definition savetxt (sep : ascii) (a : narr) : result (list line) :=
  match n_dims a with
  | [_] => Ok (map (fun x => Cells sep [x]) (n_data a))
  | [r; c] => Ok (map (Cells sep) (chunks r c (n_data a)))
  | _ => Err ValueError
  end.
(** [np.loadtxt(comments="#")]: comments and blank lines are skipped, a line with another separator cannot be parsed, all rows must
    have the same number of entries; axes of length 1 are dropped from the result, and an empty file gives an empty 1-d array. *)
Fixpoint parse (sep : ascii) (l : list line) : result (list (list R)) :=
  match l with
  | [] => Ok []
  | Comment :: l' | Cells _ [] :: l' => parse sep l'
  | Cells s row :: l' =>
      if ((length row =? 1) || Ascii.eqb s sep)%bool then bind (parse sep l') (fun rows => Ok (row :: rows)) else Err ValueError
  end.
Definition squeeze_dims (d : list nat) : list nat := filter (fun k => negb (k =? 1)) d.
Definition loadtxt (sep : ascii) (l : list line) : result narr :=
  bind (parse sep l) (fun rows =>
  match rows with
  | [] => Ok (mkN [0] [])
  | row :: rows' =>
      if forallb (fun x => length x =? length row) rows'
      then Ok (mkN (squeeze_dims [S (length rows'); length row]) (concat rows))
      else Err ValueError
  end).

(** ** io_utils.py *)
(** Lines 9-41 [read_numpy_data].  [RuntimeError] stands for FileNotFoundError; [TypeError] for handing out an open archive instead of
    an array (np.load looks at the contents of the file, not at its name). *)
Definition read_numpy (fs : afiles) (p : path) : result narr :=
  match fs p with
  | None => Err RuntimeError
  | Some x =>
      let s := suffix (file_name p) in
      if String.eqb s ".npy" then match x with ANpy a => Ok a | ANpz _ => Err TypeError | _ => Err ValueError end
      else if String.eqb s ".npz" then
        match x with
        | ANpz d => match dget "arr_0" d with Some a => Ok a | None => Err KeyError end
        | ANpy _ => Err IndexError
        | _ => Err ValueError
        end
      else if smem s [".csv"; ".ecsv"] then match x with AText l => loadtxt "," l | _ => Err ValueError end
      else if smem s [".txt"] then match x with AText l => loadtxt " " l | _ => Err ValueError end
      else Err ValueError
  end.
(** Lines 44-66 [write_numpy_data].  [np.savetxt] opens, and so empties, the file before it looks at the array. *)
Definition write_text (fs : afiles) (p : path) (sep : ascii) (a : narr) : result unit * afiles :=
  match savetxt sep a with Ok l => (Ok tt, aput p (AText l) fs) | Err e => (Err e, aput p (AText []) fs) end.
Definition write_numpy (fs : afiles) (p : path) (a : narr) : result unit * afiles :=
  let s := suffix (file_name p) in
  if String.eqb s ".npy" then (Ok tt, aput p (ANpy a) fs)
  else if String.eqb s ".npz" then (Ok tt, aput p (ANpz [("arr_0", a)]) fs)
  else if smem s [".csv"; ".ecsv"] then write_text fs p "," a
  else if smem s [".txt"; ".dat"] then write_text fs p " " a
  else (Err ValueError, fs).

(** ** static_sed_model.py *)
(** The two rows of a 2-d array as points (wavelength, flux). *)
Definition points (n : nat) (l : list R) : curve := combine (firstn n l) (skipn n l).
(** Lines 41-71: the constructor on one numpy array: a 2-d array with two rows is one SED; the rows of any other 2-d array, and the
    entries of a 1-d array, are no SEDs; without any entry the sampler node refuses.  (0-d arrays have no length: TypeError.  Arrays of
    three and more axes: [TemplateModel.SCube].) *)
Definition static_of_array (a : narr) : result (list curve) :=
  match n_dims a with
  | [] => Err TypeError
  | [2; n] => make_static_model (SMat (mkArr 2 (points n (n_data a))))
  | _ => Err ValueError
  end.
(** Lines 73-95 [from_file]. *)
Definition static_from_file (fs : afiles) (p : path) : result (list curve) :=
  bind (read_numpy fs p) (fun a =>
  match n_dims a with
  | [_; 2] => static_of_array (transpose a)
  | _ => Err ValueError
  end).
(** Lines 97-142 [from_synphot]: a synphot source is its redshift, its own wavelengths if it has any, and its photon flux as a function
    of wavelength; [njy w f] converts the photon flux [f] at wavelength [w] to nJy (synphot's convert_flux). *)
Record synphot := mkSyn { sy_z : R; sy_waves : option (list R); sy_flux : R -> R }.
Definition static_from_synphot (njy : R -> R -> R) (s : synphot) (waves : option (list R)) : result (list curve) :=
  if Rltb 0 (sy_z s) then Err ValueError
  else
    bind (match waves with Some w => Ok w | None => match sy_waves s with Some w => Ok w | None => Err TypeError end end) (fun ws =>
    static_of_array (mkN [2; length ws] (ws ++ map (fun w => njy w (sy_flux s w)) ws))).

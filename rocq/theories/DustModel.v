(** Model of src/lightcurvelynx/astro_utils/dustmap.py lines 26-179 (DustEBV, DustmapWrapper, ConstantHemisphereDustMap) and of
    src/lightcurvelynx/effects/extinction.py lines 41-104 (ExtinctionEffect's construction; [apply] is in SedModel.v).
    A floating point number is a real number or NaN ([None]).  Dust maps and the classes of the package dust_extinction are arguments. *)
From Coq Require Import Reals String List Bool Arith ZArith.
From Verif Require Import Base RealBase GraphStateModel NodeGraphModel.
Import ListNotations.
Open Scope string_scope.
Open Scope list_scope.
Open Scope nat_scope.

(** ** Sky positions *)
Definition num := option R.
Notation fval := (value num).
(** astropy's [SkyCoord] in degrees: one position or an array of positions. *)
Inductive coords := COne (ra dec : num) | CMany (l : list (num * num)).

(** [Longitude]: the angle wrapped into [0, 360). *)
Definition wrap360 (x : R) : R := (x - 360 * IZR (Int_part (x / 360)))%R.
Definition lon (x : num) : num := option_map wrap360 x.
(** [Latitude]: ValueError outside [-90, 90]; NaN is accepted. *)
Definition lat_ok (x : num) : bool := match x with None => true | Some d => (Rleb (-90) d && Rleb d 90)%bool end.
Fixpoint flat (l : list fval) : option (list num) :=
  match l with
  | [] => Some []
  | Atom x :: l' => match flat l' with Some xs => Some (x :: xs) | None => None end
  | Arr _ :: _ => None
  end.
(** [SkyCoord(ra, dec, frame="icrs", unit="deg")].  Simplification: arrays of different lengths are refused, also where numpy would broadcast an array of length 1;
    nested arrays are refused. *)
Definition sky_coord (ra dec : fval) : result coords :=
  match ra, dec with
  | Atom a, Atom d => if lat_ok d then Ok (COne (lon a) d) else Err ValueError
  | Atom a, Arr ds =>
      match flat ds with
      | Some ys => if forallb lat_ok ys then Ok (CMany (map (fun d => (lon a, d)) ys)) else Err ValueError
      | None => Err ValueError
      end
  | Arr xs, Atom d =>
      match flat xs with
      | Some xs => if lat_ok d then Ok (CMany (map (fun a => (lon a, d)) xs)) else Err ValueError
      | None => Err ValueError
      end
  | Arr xs, Arr ds =>
      match flat xs, flat ds with
      | Some xs, Some ys =>
          if negb (length xs =? length ys) then Err ValueError
          else if forallb lat_ok ys then Ok (CMany (combine (map lon xs) ys)) else Err ValueError
      | _, _ => Err ValueError
      end
  end.

(** ** Nodes *)
(** dustmap.py 49-54 [DustEBV.__init__]: the two setters are required. *)
Definition dust_init {S} (ra dec : option S) : result (S * S) :=
  match ra, dec with Some a, Some d => Ok (a, d) | _, _ => Err ValueError end.
(** A dust map of the package dustmaps: what [query] returns. *)
Definition dustmap := coords -> result fval.
(** dustmap.py 92-117 [DustmapWrapper.compute_ebv]. *)
Definition wrapper_ebv (dm : option dustmap) (ebv_func : option (fval -> result fval)) (ra dec : fval) : result fval :=
  match dm with
  | None => Err ValueError
  | Some query =>
      bind (sky_coord ra dec) (fun c => bind (query c) (fun v => match ebv_func with Some f => f v | None => Ok v end))
  end.
(** The node's [compute] (base_models.py 932-971) with the query function [q], the arguments "ra" and "dec" and the output "ebv". *)
Definition dust_compute (q : fval -> fval -> result fval) (node : string) (st : gs num) : gs num * result fval :=
  match build_inputs st node ["ra"; "dec"] [] with
  | Err e => (st, Err e)
  | Ok args =>
      match dget "ra" args, dget "dec" args with
      | Some ra, Some dec =>
          match q ra dec with
          | Err e => (st, Err e)
          | Ok v => match save_results_gs st node ["ebv"] v with
                    | (st', None) => (st', Ok v)
                    | (st', Some e) => (st', Err e)
                    end
          end
      | _, _ => (st, Err KeyError)
      end
  end.

(** ** ConstantHemisphereDustMap *)
(** Comparisons with NaN are false. *)
Definition nonneg (x : num) : bool := match x with Some d => Rleb 0 d | None => false end.
Definition negative (x : num) : bool := match x with Some d => Rltb d 0 | None => false end.
(** dustmap.py 139-158 [compute_ebv].  Line 155 with an array for the declination: the truth value of an array is only defined for one element.  Nested arrays are refused
    (simplification). *)
Definition hemi_ebv (north south : num) (ra dec : fval) : result fval :=
  match ra with
  | Atom _ =>
      match dec with
      | Atom d => Ok (Atom (if nonneg d then north else south))
      | Arr [Atom d] => Ok (Atom (if nonneg d then north else south))
      | Arr _ => Err ValueError
      end
  | Arr _ =>
      match dec with
      | Atom d => Ok (Atom (if negative d then south else north))
      | Arr ds => match flat ds with
                  | Some ys => Ok (Arr (map (fun d => Atom (if negative d then south else north)) ys))
                  | None => Err ValueError
                  end
      end
  end.
(** dustmap.py 160-179 [query]. *)
Definition hemi_query (north south : num) : dustmap := fun c =>
  match c with
  | COne a d => hemi_ebv north south (Atom a) (Atom d)
  | CMany l => hemi_ebv north south (Arr (map (fun p => Atom (fst p)) l)) (Arr (map (fun p => Atom (snd p)) l))
  end.

(** ** Extinction laws by name *)
Section Extinction.
(** [K]: keyword values (setters). [L]: extinction laws. *)
Context {K L : Type}.
(** An entry of a module of dust_extinction: a class (the keywords its constructor knows, what it makes of them, whether it has [extinguish]) or anything else ([callable] is
    false, e.g. an imported module). *)
Inductive entry :=
| EClass (known : list string) (make : dict K -> result L) (ext : bool)
| EOther (ext : bool).
Definition library := list (dict entry).
(** Calling an entry with keyword arguments: TypeError for what cannot be called and for an unknown keyword. *)
Definition call_entry (e : entry) (kwargs : dict K) : result L :=
  match e with
  | EOther _ => Err TypeError
  | EClass known make _ => if forallb (fun k => smem k known) (dkeys kwargs) then make kwargs else Err TypeError
  end.
(** extinction.py 59-78 [list_extinction_models]. *)
Definition has_ext (e : entry) : bool := match e with EClass _ _ b | EOther b => b end.
Definition list_models (lib : library) : list string :=
  flat_map (fun m => map fst (filter (fun ne => has_ext (snd ne)) m)) lib.
(** extinction.py 81-104 [load_extinction_model]. *)
Fixpoint load_model (lib : library) (name : string) (kwargs : dict K) : result L :=
  match lib with
  | [] => Err KeyError
  | m :: lib' => match dget name m with Some e => call_entry e kwargs | None => load_model lib' name kwargs end
  end.
(** The argument [extinction_model]: a name or a law. *)
Inductive marg := ByName (name : string) | ByLaw (l : option L).
Record exteff := mkX { x_rest : bool; x_name : string; x_params : dict K; x_law : option L }.
(** extinction.py 41-56 [__init__] with effect_model.py 31-43.  [label] is the keyword argument effect_name, which is also
    passed on to the class of the law (as [as_kw label]).  The keyword argument rest_frame is not modelled. *)
Definition ext_init (lib : library) (as_kw : string -> K) (model : marg) (ebv : K) (frame : option string) (label : option string) (kwargs : dict K) : result exteff :=
  let eff_name := match label with Some n => n | None => "ExtinctionEffect" end in
  let params := dset "ebv" ebv (fold_left (fun d kv => dset (fst kv) (snd kv) d) kwargs []) in
  match (match frame with
         | Some s => if String.eqb s "observer" then Ok false else if String.eqb s "rest" then Ok true else Err ValueError
         | None => Err ValueError
         end) with
  | Err e => Err e
  | Ok rest =>
      match model with
      | ByLaw l => Ok (mkX rest eff_name params l)
      | ByName n =>
          let all := match label with Some s => kwargs ++ [("effect_name", as_kw s)] | None => kwargs end in
          match load_model lib n all with
          | Err e => Err e
          | Ok l => Ok (mkX rest eff_name params (Some l))
          end
      end
  end.
End Extinction.
Arguments entry K L : clear implicits.
Arguments library K L : clear implicits.
Arguments marg L : clear implicits.
Arguments exteff K L : clear implicits.

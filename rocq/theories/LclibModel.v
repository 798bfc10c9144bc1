(** Model of the LCLIB reader, src/lightcurvelynx/utils/io_utils.py 151-239.

    A file is its list of lines.  [float(...)] is a parameter [parse] of the model: any partial
    function from text to numbers ([None]: ValueError).  [str.strip()] and [str.split()] know the
    ASCII white space characters. *)
From Coq Require Import String Ascii List Bool Arith.
From Verif Require Import Base.
Import ListNotations.
Open Scope string_scope.
Open Scope list_scope.
Open Scope nat_scope.

(** ** Strings *)
Definition is_space (c : ascii) : bool :=
  let n := nat_of_ascii c in ((9 <=? n) && (n <=? 13)) || ((28 <=? n) && (n <=? 32)).
Fixpoint lstrip_l (l : list ascii) : list ascii :=
  match l with
  | c :: l' => if is_space c then lstrip_l l' else l
  | [] => []
  end.
(** [s.strip()] *)
Definition strip_l (l : list ascii) : list ascii := rev (lstrip_l (rev (lstrip_l l))).
(** What precedes the first [c] ([s.split(c)[0]]). *)
Fixpoint before_l (c : ascii) (l : list ascii) : list ascii :=
  match l with
  | [] => []
  | d :: l' => if Ascii.eqb d c then [] else d :: before_l c l'
  end.
(** [s.split(c, 1)] when [c] occurs in [s]. *)
Fixpoint cut_l (c : ascii) (l : list ascii) : option (list ascii * list ascii) :=
  match l with
  | [] => None
  | d :: l' => if Ascii.eqb d c then Some ([], l')
               else match cut_l c l' with Some (a, b) => Some (d :: a, b) | None => None end
  end.
(** [s.split(c)] *)
Fixpoint split_l (c : ascii) (l : list ascii) : list (list ascii) :=
  match l with
  | [] => [[]]
  | d :: l' => if Ascii.eqb d c then [] :: split_l c l'
               else match split_l c l' with [] => [[d]] | w :: ws => (d :: w) :: ws end
  end.
(** [s.split()]: the maximal pieces without white space. *)
Fixpoint words_l (l : list ascii) : list (list ascii) :=
  match l with
  | [] => []
  | d :: l' => if is_space d then words_l l'
               else match l' with
                    | [] => [[d]]
                    | e :: _ => if is_space e then [d] :: words_l l'
                                else match words_l l' with [] => [[d]] | w :: ws => (d :: w) :: ws end
                    end
  end.
Definition str := string_of_list_ascii.
Definition chars := list_ascii_of_string.
Definition split_ws (s : string) : list string := map str (words_l (chars s)).
Definition split_on (c : ascii) (s : string) : list string := map str (split_l c (chars s)).
Fixpoint has_char (c : ascii) (l : list ascii) : bool :=
  match l with [] => false | d :: l' => Ascii.eqb d c || has_char c l' end.

(** io_utils.py 172-181: the key and the value of a line, if it has any. *)
Definition lex (line : string) : option (string * string) :=
  let l := strip_l (before_l "#" (chars line)) in
  match cut_l ":" l with
  | None => None
  | Some (k, v) => Some (str k, str (strip_l v))
  end.

Section Lclib.
Variable V : Type.
Variable parse : string -> option V.

(** The cells of a table, its columns and metadata. *)
Inductive cell := CText (s : string) | CNum (v : V).
Inductive mval := MText (s : string) | MPar (d : dict string).
Record table := mkTable { tb_cols : dict (list cell); tb_meta : dict mval }.

(** io_utils.py 164-169: the variables of the loop. *)
Record lstate := mkL { l_cols : list string; l_curves : list table; l_meta : dict mval;
                       l_model : dict (list cell); l_par : list string; l_doc : bool }.
Definition l_init : lstate := mkL [] [] [] [] [] false.

(** [current_model[col].append(x)] *)
Definition append_to (col : string) (x : cell) (m : dict (list cell)) : result (dict (list cell)) :=
  match dget col m with
  | None => Err KeyError
  | Some l => Ok (dset col (l ++ [x]) m)
  end.

(** astropy's [Table(dict)]: the columns must have equal lengths; the data and metadata are
    copied. *)
Definition equal_lengths (m : dict (list cell)) : bool :=
  match m with
  | [] => true
  | (_, c) :: m' => forallb (fun kc => length (snd kc) =? length c) m'
  end.
Definition make_table (m : dict (list cell)) (meta : dict mval) : result table :=
  if equal_lengths m then Ok (mkTable m meta) else Err ValueError.

(** [meta.get("id", "")] compared with a text. *)
Definition id_is (meta : dict mval) (v : string) : bool :=
  match dget "id" meta with
  | None => String.eqb v ""
  | Some (MText s) => String.eqb v s
  | Some (MPar _) => false
  end.

(** [{k: v for k, v in zip(names, values)}] *)
Fixpoint zip_dict (names vals : list string) (d : dict string) : dict string :=
  match names, vals with
  | n :: names', v :: vals' => zip_dict names' vals' (dset n v d)
  | _, _ => d
  end.

(** io_utils.py 218-226: an observation or template row. *)
Definition add_row (cols : list string) (key value : string) (m : dict (list cell)) : result (dict (list cell)) :=
  bind (append_to "type" (CText key) m) (fun m =>
  let vals := split_ws value in
  if negb (length vals =? length cols) then Err ValueError
  else fold_res (fun m cv => match dget (fst cv) m, parse (snd cv) with
                             | None, _ => Err KeyError
                             | Some _, None => Err ValueError
                             | Some _, Some v => append_to (fst cv) (CNum v) m
                             end) m (combine cols vals)).

(** io_utils.py 171-237: the body of the loop, after the line has been split. *)
Definition handle (st : lstate) (key value : string) : result lstate :=
  let doc := if String.eqb key "DOCUMENTATION" then true
             else if String.eqb key "DOCUMENTATION_END" then false else l_doc st in
  let st := mkL (l_cols st) (l_curves st) (l_meta st) (l_model st) (l_par st) doc in
  if doc then Ok st
  else if String.eqb key "COMMENT" then Ok st
  else if String.eqb key "FILTERS" then
    Ok (mkL ("time" :: map (fun c => String c EmptyString) (chars value)) (l_curves st) (l_meta st) (l_model st) (l_par st) doc)
  else if String.eqb key "END_EVENT" then
    if id_is (l_meta st) value then
      bind (make_table (l_model st) (l_meta st)) (fun t =>
      Ok (mkL (l_cols st) (l_curves st ++ [t]) (l_meta st) (l_model st) (l_par st) doc))
    else Err ValueError
  else if String.eqb key "START_EVENT" then
    if length (l_cols st) =? 0 then Err ValueError
    else Ok (mkL (l_cols st) (l_curves st) (dset "id" (MText value) (l_meta st))
               (fold_left (fun m c => dset c [] m) (l_cols st) (dset "type" [] (l_model st))) (l_par st) doc)
  else if String.eqb key "S" || String.eqb key "T" then
    bind (add_row (l_cols st) key value (l_model st)) (fun m =>
    Ok (mkL (l_cols st) (l_curves st) (l_meta st) m (l_par st) doc))
  else if String.eqb key "MODEL_PARNAMES" || String.eqb key "MODEL_PARAMETERS" then
    Ok (mkL (l_cols st) (l_curves st) (l_meta st) (l_model st) (split_on "," value) doc)
  else if String.eqb key "PARVAL" then
    let vals := if has_char "," (chars value) then split_on "," value else split_ws value in
    if negb (length vals =? length (l_par st)) then Err ValueError
    else Ok (mkL (l_cols st) (l_curves st) (dset "PARVAL" (MPar (zip_dict (l_par st) vals [])) (l_meta st))
               (l_model st) (l_par st) doc)
  else Ok (mkL (l_cols st) (l_curves st) (dset key (MText value) (l_meta st)) (l_model st) (l_par st) doc).

Definition l_step (st : lstate) (line : string) : result lstate :=
  match lex line with
  | None => Ok st
  | Some (key, value) => handle st key value
  end.

(** io_utils.py 151-239 [_read_lclib_data_from_open_file]. *)
Definition read_lclib (lines : list string) : result (list table) :=
  bind (fold_res l_step l_init lines) (fun st => Ok (l_curves st)).
End Lclib.
Arguments CText {V} s. Arguments CNum {V} v.

(** Model of src/lightcurvelynx/utils/data_download.py (1-53), of the data installation in
    src/lightcurvelynx/astro_utils/dustmap.py (SFDMap, 218-287) and of src/lightcurvelynx/obstable/opsim.py (from_url, 120-146), with
    what they use of pooch (version 1: [retrieve], [Untar]).
    A file's content is a number.  Files and directories are two maps over absolute paths.  Every change of the file system is one
    step, so that a crash leaves the effect of a prefix of the steps.  pooch downloads into a temporary file which it renames when
    it is complete: one step.  A missing connection (requests' ConnectionError) is [RuntimeError] here. *)
From Coq Require Import String Ascii List Bool Arith ZArith.
From Verif Require Import Base.
Import ListNotations.
Open Scope list_scope.
Open Scope nat_scope.

Definition path := list string.
Definition path_eqb (p q : path) : bool := if list_eq_dec string_dec p q then true else false.
(** [w_remote]: what the server answers for a URL ([None]: no connection, no such file).  [w_cache]: pooch's cache directory. *)
Record world := mkW { w_file : path -> option Z; w_dir : path -> bool; w_remote : string -> option Z; w_cwd : path; w_cache : path }.
Definition step := world -> world.
Definition run (l : list step) (w : world) : world := fold_left (fun w s => s w) l w.
Definition put (p : path) (c : Z) : step := fun w =>
  mkW (fun q => if path_eqb q p then Some c else w_file w q) (w_dir w) (w_remote w) (w_cwd w) (w_cache w).
Definition is_prefix (p q : path) : bool := path_eqb p (firstn (length p) q).
(** [mkdir(parents=True, exist_ok=True)]. *)
Definition mkdirs (p : path) : step := fun w =>
  mkW (w_file w) (fun q => (w_dir w q || is_prefix q p)%bool) (w_remote w) (w_cwd w) (w_cache w).
(** [Path.exists] *)
Definition exists_ (w : world) (p : path) : bool := (match w_file w p with Some _ => true | None => false end || w_dir w p)%bool.

(** ** data_download.py lines 11-53 [download_data_file_if_needed]; [p] is the absolute path. *)
(** The steps, and the exception that ends them (pooch.retrieve without a known hash: an existing file counts as up to date). *)
Definition download_steps (w : world) (p : path) (url : string) : list step * option err :=
  let mk := [mkdirs (removelast p)] in
  if exists_ w p then (mk, None)
  else match w_remote w url with Some c => (mk ++ [put p c], None) | None => (mk, Some RuntimeError) end.
Definition download (w : world) (p : path) (url : option string) (force : bool) : result bool * world :=
  if (negb force && exists_ w p)%bool then (Ok true, w)
  else match url with
       | None | Some EmptyString => (Err ValueError, w)
       | Some u =>
           let (l, e) := download_steps w p u in
           let w' := run l w in
           (match e with Some e => Err e | None => Ok (exists_ w' p) end, w')
       end.
(** The same, interrupted after [k] steps. *)
Definition download_crash (k : nat) (w : world) (p : path) (url : option string) (force : bool) : world :=
  if (negb force && exists_ w p)%bool then w
  else match url with
       | None | Some EmptyString => w
       | Some u => run (firstn k (fst (download_steps w p u))) w
       end.

(** ** opsim.py lines 120-146 [from_url]: the path of a URL is given by what follows its last slash; the content of the file is what
    the table is made of. *)
Fixpoint has_slash (s : string) : bool :=
  match s with EmptyString => false | String c s' => (Ascii.eqb c "/" || has_slash s')%bool end.
Fixpoint last_part (s : string) : string :=
  match s with EmptyString => EmptyString | String c s' => if has_slash s then last_part s' else s end.
Definition url_path (base : path) (url : string) : path :=
  let name := last_part url in if String.eqb name "" then base ++ ["opsim"%string] else base ++ ["opsim"%string; name].
Definition from_url (base : path) (w : world) (url : string) (force : bool) : result Z * world :=
  let p := url_path base url in
  match download w p (Some url) force with
  | (Ok true, w') => (match w_file w' p with Some c => Ok c | None => Err RuntimeError end, w')
  | (Ok false, w') => (Err RuntimeError, w')
  | (Err e, w') => (Err e, w')
  end.

(** ** dustmap.py *)
Inductive darg := Abs (p : path) | Rel (p : path).
Definition ngp : string := "SFD_dust_4096_ngp.fits".
Definition sgp : string := "SFD_dust_4096_sgp.fits".
Definition master : string := "sfddata-master".
Definition sfd_url : string := "https://github.com/kbarbary/sfddata/archive/master.tar.gz".
(** Lines 225-233 [_data_files_exist]. *)
Definition data_files_exist (w : world) (d : path) : bool := (w_dir w d && exists_ w (d ++ [ngp]) && exists_ w (d ++ [sgp]))%bool.
Definition at_cwd (w : world) (a : darg) : path := match a with Abs p => p | Rel p => w_cwd w ++ p end.
(** pooch.Untar: [os.path.join(archive_dir, extract_dir)]. *)
Definition extract_dir (w : world) (a : darg) : path := match a with Abs p => p | Rel p => w_cache w ++ p end.
Definition archive (w : world) : path := w_cache w ++ ["master.tar.gz"%string].
(** The archive with the hash in the code, and the two files in it. *)
Definition good : Z := 0.
Definition extraction (x : path) (w : world) : list step :=
  [mkdirs (x ++ [master]); put (x ++ [master; ngp]) 1; put (x ++ [master; sgp]) 2].
(** Lines 263-281: the steps, and the exception that ends them.  pooch: an archive in the cache with the right hash is used ("fetch"),
    otherwise it is downloaded, and refused if the hash is wrong; the archive is unpacked after a download or when the
    target directory does not exist. *)
Definition sfd_steps (w : world) (a : darg) : list step * option err :=
  let d := at_cwd w a in
  let mk := if exists_ w d then [] else [mkdirs d] in
  let x := extract_dir w a in
  if match w_file w (archive w) with Some c => Z.eqb c good | None => false end
  then (mk ++ (if exists_ (run mk w) x then [] else extraction x w), None)
  else match w_remote w sfd_url with
       | None => (mk, Some RuntimeError)
       | Some c => if Z.eqb c good then (mk ++ mkdirs (w_cache w) :: put (archive w) good :: extraction x w, None) else (mk, Some ValueError)
       end.
(** Lines 235-287 [_load_data]: the directory the map is read from. *)
Definition sfd_load (w : world) (a : darg) : result path * world :=
  let d := at_cwd w a in
  if data_files_exist w d then (Ok d, w)
  else
    let (l, e) := sfd_steps w a in
    let w' := run l w in
    (match e with
     | Some e => Err e
     | None => let d' := d ++ [master] in if data_files_exist w' d' then Ok d' else Err ValueError
     end, w').
Definition sfd_crash (k : nat) (w : world) (a : darg) : world :=
  if data_files_exist w (at_cwd w a) then w else run (firstn k (fst (sfd_steps w a))) w.
(** What happens between two loads: the network comes and goes. *)
Definition network (remote : string -> option Z) (w : world) : world := mkW (w_file w) (w_dir w) remote (w_cwd w) (w_cache w).
Fixpoint sfd_loads (w : world) (a : darg) (remotes : list (string -> option Z)) : list (result path) * world :=
  match remotes with
  | [] => ([], w)
  | r :: rs => let (o, w1) := sfd_load (network r w) a in let (os, w2) := sfd_loads w1 a rs in (o :: os, w2)
  end.

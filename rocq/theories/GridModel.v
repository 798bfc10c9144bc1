(** Model of the grid file reader, src/lightcurvelynx/utils/io_utils.py 69-148, after the text has
    been parsed into a table: the list of its columns, as exact numbers (no NaN).  astropy keeps
    the columns of a table at equal length. *)
From Coq Require Import List Bool Arith Reals.
From Verif Require Import Base RealBase BicubicModel.
Import ListNotations.
Open Scope R_scope.

(** io_utils.py 113-114 [np.sort(np.unique(column))]. *)
Fixpoint ins_new (a : R) (l : list R) : list R :=
  match l with
  | [] => [a]
  | b :: l' => if Rltb a b then a :: l else if Reqb a b then l else b :: ins_new a l'
  end.
Definition unique (l : list R) : list R := fold_right ins_new [] l.

(** io_utils.py 123-139: the loops over the grid; [rows] are the rows from the counter on. *)
Fixpoint check_inner (a : R) (x1 : list R) (rows : list (R * R)) : result (list (R * R)) :=
  match x1 with
  | [] => Ok rows
  | b :: x1' =>
      match rows with
      | [] => Err IndexError
      | (u, w) :: rows' => if negb (Reqb u a) then Err ValueError
                           else if negb (Reqb w b) then Err ValueError
                           else check_inner a x1' rows'
      end
  end.
Fixpoint check_order (x0 x1 : list R) (rows : list (R * R)) : result (list (R * R)) :=
  match x0 with
  | [] => Ok rows
  | a :: x0' => bind (check_inner a x1 rows) (check_order x0' x1)
  end.

(** io_utils.py 69-148 [read_grid_data]. *)
Definition read_grid (validate : bool) (cols : list (list R)) : result (list R * list R * list (list R)) :=
  match cols with
  | [a; b; v] =>
      let x0 := unique a in
      let x1 := unique b in
      if negb (length a =? length x0 * length x1)%nat then Err ValueError
      else bind (if validate then check_order x0 x1 (combine a b) else Ok [])
             (fun _ => Ok (x0, x1, reshape (length x0) (length x1) v))
  | _ => Err ValueError
  end.

(** bicubic_interp.py 178-192 [from_grid_file]. *)
Definition from_grid_file (cols : list (list R)) (scale : R) : result bicubic :=
  bind (read_grid false cols) (fun g => match g with (x0, x1, v) => bic_from_grid x0 x1 v scale end).

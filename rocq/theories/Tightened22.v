(** ZTF's database loader with a column map of the caller. *)
From Coq Require Import Reals String List Bool Arith Lia Lra ZArith.
From Verif Require Import Base BaseFacts RealBase ObsTableModel SurveyModel ObsFileModel.
Import ListNotations.
Open Scope string_scope.
Open Scope list_scope.

(** The table made is the one the constructor makes of the rows read, with the caller's column map (or the default one); an error of
    reading is passed on. *)
Theorem C107_ztf_columns : forall mjd fs p q cm, ztf_from_db mjd fs p q cm = from_db (ztf_class mjd) fs p q cm [] None /\
  match load_db fs p q with
  | Ok f => ztf_from_db mjd fs p q cm = ztf_make mjd f cm [] [] None
  | Err e => ztf_from_db mjd fs p q cm = Err e
  end.
Proof.
  intros mjd fs p q cm. split.
  - unfold ztf_from_db, from_db. destruct (load_db fs p q) as [f|e]; [|reflexivity]. cbn [bind]. unfold kmake. destruct cm; reflexivity.
  - unfold ztf_from_db. destruct (load_db fs p q) as [f|e]; [|reflexivity]. cbn [bind]. unfold kmake, ztf_make, ztf_class, add_mjd. cbn [k_defaults k_zero k_map k_prep].
    destruct (dget "obsdate" (f_cols f)); reflexivity.
Qed.
(** A case: a table with other names for the columns. *)
Example C107_ztf_columns_case : forall mjd (fs : files) cols, fs "ztf.db" = Some (FDb [("visits", cols)]) ->
  let cm := [("ra", "RA"); ("dec", "DEC"); ("time", "when"); ("filter", "band")] in
  ztf_from_db mjd fs "ztf.db" (select_all "visits") (Some cm) =
  ztf_make mjd (mkFrame (seq 0 (match cols with [] => 0 | (_, c) :: _ => length c end)) cols) (Some cm) [] [] None.
Proof.
  intros mjd fs cols H cm. destruct (C107_ztf_columns mjd fs "ztf.db" (select_all "visits") (Some cm)) as [_ E]. unfold load_db in E. rewrite H in E. exact E.
Qed.

(** dtfabric/scripts/validate_definitions.py: the definitions validator. *)
From Coq Require Import List ZArith Bool.
From Verif Require Import Base Yaml Reader.
Import ListNotations.

(** DefinitionsValidator.CheckFile, validate_definitions.py:43-71, with a new
    registry; exceptions other than KeyError and FormatError escape. *)
Definition check_file (env : yenv) (f : yfile) : res bool :=
  match fst (read_file env rreg_empty f) with
  | Ok _ => Ok true
  | Raise KeyError | Raise FormatError => Ok false
  | Raise e => Raise e
  | OutOfFuel => OutOfFuel
  end.

(** DefinitionsValidator.CheckDirectory, validate_definitions.py:20-41, on the
    files the glob finds, in sorted order. *)
Definition check_directory (env : yenv) (files : list yfile) : res bool :=
  fold_left (fun acc f =>
    let* result := acc in
    let* ok := check_file env f in
    Ok (if ok then result else false)) files (Ok true).

(** The exit code of Main, validate_definitions.py:74-124, for an existing
    source: a directory or a file. *)
Definition exit_code (result : res bool) : res Z :=
  res_map (fun ok : bool => if ok then 0%Z else 1%Z) result.

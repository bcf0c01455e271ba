(** Vocabulary for the statements about the metadata (C35-C39). *)
From Coq Require Import String Ascii List NArith ZArith Bool.
From Verif Require Import Base RewriteModel MetaModel.
Import ListNotations.

(** What the running process, and a process started afterwards, know about a table. *)
Definition in_memory (d : delta) (db t : pystr) : option tmeta :=
  match dget (self_meta d) db with Some T => dget T t | None => None end.
Definition after_restart (d : delta) (db t : pystr) : option tmeta := in_memory (restart d) db t.

(** The part of a table's metadata that is persisted. *)
Definition persisted (m : tmeta) : tmeta := {| t_anon := t_anon m; t_cols := t_cols m; t_comment := None |}.

Inductive mop := Create (db t : pystr) (m : tmeta) | Drop (db t : pystr) | Restart.
Definition meta_step (d : delta) (op : mop) : delta :=
  match op with
  | Create db t m => fst (update_delta MySQL None d db t m)
  | Drop db t => fst (delete_delta MySQL None d db t)
  | Restart => restart d
  end.
Definition fresh_install : delta := {| d_class := []; d_inst := None; d_rows := [] |}.
Definition meta_run (d : delta) (ops : list mop) : delta := fold_left meta_step ops d.

(** Tables are created only when absent, with at least one column and distinct column names. *)
Fixpoint created_when_absent (d : delta) (ops : list mop) : Prop :=
  match ops with
  | [] => True
  | op :: r =>
    match op with
    | Create db t m => in_memory d db t = None /\ t_cols m <> [] /\ NoDup (dkeys (t_cols m))
    | _ => True
    end /\ created_when_absent (meta_step d op) r
  end.

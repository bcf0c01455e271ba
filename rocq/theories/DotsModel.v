(** * Model of the dotted names (/repo/dots/__init__.py) *)
From Coq Require Import List NArith ZArith Bool.
From Verif Require Import Base JsonModel.
Import ListNotations.

Definition BEL : N := 7%N.   (* \a *)
Definition BS : N := 8%N.    (* \b *)
Definition BSL : N := 92%N.  (* backslash *)

(** [s.replace(c, r)] with a one-character pattern; L158-162, 181-184. *)
Definition replace1 (c : N) (r : pystr) (s : pystr) : pystr :=
  flat_map (fun x => if N.eqb x c then r else [x]) s.
(** [s.replace("\\.", out)], L158, 162, 182, 184: from the left, without overlap. *)
Fixpoint replace_escdot (out : N) (s : pystr) : pystr :=
  match s with
  | [] => []
  | c :: r =>
    match r with
    | d :: r' => if N.eqb c BSL && N.eqb d DOT then out :: replace_escdot out r' else c :: replace_escdot out r
    | [] => [c]
    end
  end.

(** A step of a path: -1 (to the parent) or a name.  Simplified: a path holds no None
    (L180, 184 drop them). *)
Inductive step := Up | Name (s : pystr).

(** [k.replace("\a", ".") for k in f.replace("\\.", "\a").replace("\b", "\\.").split(".")], L158, 162. *)
Definition split_names (f : pystr) : list pystr :=
  map (replace1 BEL [DOT]) (split DOT (replace1 BS [BSL; DOT] (replace_escdot BEL f))).

(** [field.lstrip(".")], L155. *)
Fixpoint lstrip_dots (s : pystr) : pystr :=
  match s with c :: r => if N.eqb c DOT then lstrip_dots r else s | [] => [] end.

(** [split_field], L148-164, on a text. *)
Definition split_field (f : pystr) : list step :=
  if seqb f [DOT] then []
  else if has_char DOT f || has_char BS f then
    match f with
    | c :: d :: _ =>
      if N.eqb c DOT && N.eqb d DOT then
        let rem := lstrip_dots f in
        repeat Up (length f - length rem - 1) ++ map Name (split_names rem)
      else map Name (split_names f)
    | _ => map Name (split_names f)
    end
  else [Name f].

(** [".".join(f.replace(".", "\a") for f in path).replace("\\.", "\b").replace("\a", "\\.")], L180-184;
    an int among the names has no [replace]. *)
Definition step_name (s : step) : res pystr := match s with Name f => Ok f | Up => Err AttributeError end.
Definition join_names (l : list pystr) : pystr :=
  replace1 BEL [BSL; DOT] (replace_escdot BS (join [DOT] (map (replace1 DOT [BEL]) l))).

(** The loop L176-183: the leading -1 steps and the rest. *)
Fixpoint span_up (p : list step) : nat * list step :=
  match p with Up :: r => let (n, q) := span_up r in (S n, q) | _ => (0, p) end.

(** [join_field], L167-186. *)
Definition join_field (p : list step) : res pystr :=
  match p with
  | [] => Ok [DOT]
  | Up :: _ =>
    let (n, q) := span_up p in
    match q with
    | [] => Ok (DOT :: repeat DOT n)
    | _ => do l <- mapM step_name q; Ok (DOT :: repeat DOT n ++ join_names l)
    end
  | _ =>
    do l <- mapM step_name p;
    let out := join_names l in
    Ok (match out with [] => [DOT] | _ => out end)
  end.

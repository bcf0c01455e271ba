(** Normalisation of parse results: scrub, sql_parsing/utils.py L75-118, with simple_op L54-59, and
    the parts of ParseResults that it uses, parsing/results.py L22-206 and L352-390.

    Simplifications: bytes (L82-83) do not occur in the model; a ForwardResults (results.py L333-362)
    is represented by a ParseResults with its own name and the kind and the tokens of its only token,
    to which it delegates; null_locations, the list of the places where the parser's caller puts its own
    null, is left out, the marker SQL_NULL stays in the result.  scrub(list(result)) and scrub of the
    values of result.items() are written over the scrubbed parts ([sem] computes for a value its
    scrubbed form together with the scrubbed forms of items() and iter()), the same values in the same
    order. *)
From Coq Require Import String Ascii List NArith ZArith Bool.
From Verif Require Import Base.
Import ListNotations.

(** What scrub is applied to: the marker SQL_NULL (utils.py L32), None, text, a number (here an
    integer), True or False (a number for Python), Call (utils.py L21-27), dict, list, ParseResults with its name (the empty text: none),
    whether its type is a Group, whether it is an Annotation (results.py L393), and its tokens. *)
Inductive pv : Type :=
| PNull | PNone | PText (s : pystr) | PNum (z : Z) | PBool (b : bool)
| PCall (op : pystr) (args : pv) (kwargs : list (pystr * pv))
| PDict (d : list (pystr * pv))
| PList (l : list pv)
| PRes (name : pystr) (group ann : bool) (tokens : list pv).

(** The values that scrub returns. *)
Inductive out : Type :=
| ONull | ONone | OText (s : pystr) | ONum (z : Z) | OBool (b : bool) | ODict (d : list (pystr * out)) | OList (l : list out).

(** [not is_null(vv)], dots/__init__.py L740-749. *)
Definition not_null (o : out) : bool := match o with ONone => false | _ => true end.

(** The list case of scrub, L95-106, over the scrubbed elements. *)
Definition norm_list (l : list out) : out :=
  match l with [] => ONone | [x] => x | _ => OList l end.

(** simple_op, L54-59; [scrub(kwargs)] is a dict. *)
Definition simple_op (op : pystr) (args : out) (kwargs : list (pystr * out)) : out :=
  ODict (dset kwargs op (match args with ONone => ODict [] | a => a end)).

(** The dict comprehension, L113, over scrubbed values. *)
Definition drop_null (d : list (pystr * out)) : list (pystr * out) := filter (fun kv => not_null (snd kv)) d.

Definition named (n : pystr) : bool := match n with [] => false | _ => true end.

(** ParseResults.__bool__, results.py L136-151. *)
Fixpoint truthy (x : pv) : bool :=
  match x with
  | PRes _ _ _ toks => existsb (fun t => match t with PRes n g _ _ => named n || g || truthy t | _ => true end) toks
  | _ => true
  end.

(** add, results.py L381-390. *)
Definition add (d : list (pystr * list out)) (k : pystr) (v : list out) : list (pystr * list out) :=
  match dget d k with None => dset d k v | Some old => dset d k (old ++ v) end.

(** The scrubbed form, the scrubbed items(), the scrubbed elements of iter(). *)
Definition view : Type := out * list (pystr * list out) * list out.
Definition v_out (v : view) : out := fst (fst v).
Definition v_items (v : view) : list (pystr * list out) := snd (fst v).
Definition v_iter (v : view) : list out := snd v.

(** One token in the loop of items(), results.py L195-206. *)
Definition item_step (acc : list (pystr * list out)) (tv : pv * view) : list (pystr * list out) :=
  match fst tv with
  | PRes n g _ _ =>
    if named n then add acc n [v_out (snd tv)]
    else if g then acc
    else fold_left (fun a kv => add a (fst kv) (snd kv)) (v_items (snd tv)) acc
  | _ => acc
  end.
(** One token in the loop of __iter__, L155-164. *)
Definition iter_step (tv : pv * view) : list out :=
  match fst tv with
  | PRes _ g a _ => if a then [] else if g then [v_out (snd tv)] else v_iter (snd tv)
  | _ => [v_out (snd tv)]
  end.

(** scrub, L75-118: SQL_NULL and None first ([result == None] of a ParseResults is [not bool],
    results.py L114-116), text, numbers, Call (L86-91), the empty dict, lists, the rest as a dict. *)
Fixpoint sem (x : pv) : view :=
  match x with
  | PNull => (ONull, [], [])
  | PNone => (ONone, [], [])
  | PText s => (OText s, [], [])
  | PNum z => (ONum z, [], [])
  | PBool b => (OBool b, [], [])
  | PCall op args kwargs =>
    (simple_op op (v_out (sem args)) (drop_null (map (fun kv => (fst kv, v_out (sem (snd kv)))) kwargs)), [], [])
  | PDict d => (ODict (drop_null (map (fun kv => (fst kv, v_out (sem (snd kv)))) d)), [], [])
  | PList l => (norm_list (map (fun t => v_out (sem t)) l), [], [])
  | PRes n g a toks =>
    let subs := map (fun t => (t, sem t)) toks in
    let items := fold_left item_step subs [] in
    let iter := flat_map iter_step subs in
    (if truthy x
     then match drop_null (map (fun kv => (fst kv, norm_list (snd kv))) items) with
          | [] => norm_list iter
          | d => ODict d
          end
     else ONone, items, iter)
  end.
Definition scrub (x : pv) : out := v_out (sem x).

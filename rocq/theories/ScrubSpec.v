(** Vocabulary for the statements about the normalisation of parse results. *)
From Coq Require Import String Ascii List NArith ZArith Bool.
From Verif Require Import Base ScrubModel.
Import ListNotations.

(** The values returned by scrub are themselves values it can be applied to. *)
Fixpoint back (o : out) : pv :=
  match o with
  | ONull => PNull | ONone => PNone | OText s => PText s | ONum z => PNum z | OBool b => PBool b
  | ODict d => PDict (map (fun kv => (fst kv, back (snd kv))) d)
  | OList l => PList (map back l)
  end.

(** No list of fewer than two elements, no null under a key, at any depth. *)
Fixpoint clean (o : out) : Prop :=
  match o with
  | ODict d => fold_right (fun kv P => (snd kv <> ONone /\ clean (snd kv)) /\ P) True d
  | OList l => (2 <= length l)%nat /\ fold_right (fun x P => clean x /\ P) True l
  | _ => True
  end.

(** What iterating a ParseResults yields, and its items: the values of each name, in order. *)
Fixpoint elements (x : pv) : list pv :=
  match x with
  | PRes _ _ _ toks =>
    flat_map (fun t => match t with PRes _ g a _ => if a then [] else if g then [t] else elements t | _ => [t] end) toks
  | _ => []
  end.
Definition push (d : list (pystr * list pv)) (kv : pystr * list pv) : list (pystr * list pv) :=
  match dget d (fst kv) with Some old => dset d (fst kv) (old ++ snd kv) | None => d ++ [kv] end.
Fixpoint entries (x : pv) : list (pystr * list pv) :=
  match x with
  | PRes _ _ _ toks =>
    fold_left (fun acc t => match t with
                            | PRes n g _ _ => if named n then push acc (n, [t])
                                              else if g then acc else fold_left push (entries t) acc
                            | _ => acc end) toks []
  | _ => []
  end.

(** Values that vanish. *)
Inductive void : pv -> Prop :=
| void_none : void PNone
| void_empty : void (PList [])
| void_single x : void x -> void (PList [x])
| void_false n g a toks : truthy (PRes n g a toks) = false -> void (PRes n g a toks)
| void_res n g a toks : truthy (PRes n g a toks) = true ->
    (forall k l, In (k, l) (entries (PRes n g a toks)) -> void (PList l)) ->
    void (PList (elements (PRes n g a toks))) -> void (PRes n g a toks).

(** Values without Call and ParseResults. *)
Inductive plain : pv -> Prop :=
| plain_null : plain PNull
| plain_none : plain PNone
| plain_text s : plain (PText s)
| plain_num z : plain (PNum z)
| plain_dict d : (forall k v, In (k, v) d -> plain v) -> plain (PDict d)
| plain_list l : (forall v, In v l -> plain v) -> plain (PList l).

(** Equality up to singleton lists, empty lists and keys without a value. *)
Inductive conf : pv -> pv -> Prop :=
| conf_refl x : conf x x
| conf_sym x y : conf x y -> conf y x
| conf_trans x y z : conf x y -> conf y z -> conf x z
| conf_single x : conf (PList [x]) x
| conf_empty : conf (PList []) PNone
| conf_key a k b : conf (PDict (a ++ (k, PNone) :: b)) (PDict (a ++ b))
| conf_in_list a x y b : conf x y -> conf (PList (a ++ x :: b)) (PList (a ++ y :: b))
| conf_in_dict a k x y b : conf x y -> conf (PDict (a ++ (k, x) :: b)) (PDict (a ++ (k, y) :: b)).

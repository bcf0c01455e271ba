(** JSON text: Python's [json.dumps] with its defaults ([ensure_ascii], separators [", "] and
    [": "]) and [json.loads], as used in handler.py L212 (request body), L300 (result rows), L769
    (column metadata), L788-791 (schema listing) and scheduler/schema/metadata.py L141, L167
    (column metadata).

    Simplifications.  A float is represented by the text [repr] gives it, [VFloat txt]; NaN and the
    infinities are the texts "NaN", "Infinity", "-Infinity".  A value that [json.dumps] refuses
    (Decimal, datetime, bytes) is [VOther].  [loads] takes a maximal run of number characters as a
    number and does not check the shape of a float's text; it rejects everything else that JSON
    rejects except leading zeros. *)
From Coq Require Import String Ascii List NArith ZArith Bool Lia.
From Verif Require Import Base.
Import ListNotations.

(** Values that travel through json.dumps / json.loads (handler.py L212-302). *)
Inductive jv : Type :=
| VNull
| VBool (b : bool)
| VInt (z : Z)
| VFloat (txt : pystr)
| VStr (s : pystr)
| VList (l : list jv)
| VDict (d : list (pystr * jv))
| VOther.

Section JvInd.
  Variable P : jv -> Prop.
  Hypothesis Hnull : P VNull.
  Hypothesis Hbool : forall b, P (VBool b).
  Hypothesis Hint : forall z, P (VInt z).
  Hypothesis Hfloat : forall q, P (VFloat q).
  Hypothesis Hstr : forall s, P (VStr s).
  Hypothesis Hlist : forall l, Forall P l -> P (VList l).
  Hypothesis Hdict : forall d, Forall (fun kv => P (snd kv)) d -> P (VDict d).
  Hypothesis Hother : P VOther.
  Fixpoint jv_ind2 (j : jv) : P j :=
    match j with
    | VNull => Hnull
    | VBool b => Hbool b
    | VInt z => Hint z
    | VFloat q => Hfloat q
    | VStr s => Hstr s
    | VList l => Hlist l ((fix go l := match l return Forall P l with
                                       | [] => Forall_nil _
                                       | x :: r => Forall_cons _ (jv_ind2 x) (go r)
                                       end) l)
    | VDict d => Hdict d ((fix go d := match d return Forall (fun kv => P (snd kv)) d with
                                       | [] => Forall_nil _
                                       | kv :: r => Forall_cons _ (jv_ind2 (snd kv)) (go r)
                                       end) d)
    | VOther => Hother
    end.
End JvInd.

(** One hexadecimal digit, lower case (json/encoder.py: '\\u{0:04x}', called from handler.py L300). *)
Definition hexdig (n : N) : N := if (n <? 10)%N then (48 + n)%N else (87 + n)%N.

(** Backslash, 'u' and four hexadecimal digits (handler.py L300). *)
Definition uesc (n : N) : pystr :=
  [92; 117; hexdig (n / 4096); hexdig (n / 256 mod 16); hexdig (n / 16 mod 16); hexdig (n mod 16)]%N.

(** One character inside a JSON string (json.dumps with ensure_ascii, handler.py L300). *)
Definition esc_char (c : N) : pystr :=
  (if c =? 34 then [92; 34] else
   if c =? 92 then [92; 92] else
   if c =? 10 then [92; 110] else
   if c =? 13 then [92; 114] else
   if c =? 9 then [92; 116] else
   if c =? 12 then [92; 102] else
   if c =? 8 then [92; 98] else
   if (32 <=? c) && (c <=? 126) then [c] else
   if c <? 65536 then uesc c else
   uesc (55296 + (c - 65536) / 1024) ++ uesc (56320 + (c - 65536) mod 1024))%N.

(** json.dumps of a str (handler.py L300). *)
Definition dumps_str (s : pystr) : pystr := [34%N] ++ concat (map esc_char s) ++ [34%N].

(** json.dumps (handler.py L300, L788, L791; metadata.py L141): TypeError for a value it does not
    know. *)
Fixpoint dumps (v : jv) : res pystr :=
  match v with
  | VNull => Ok (u "null")
  | VBool true => Ok (u "true")
  | VBool false => Ok (u "false")
  | VInt z => Ok (str_int z)
  | VFloat t => Ok t
  | VStr s => Ok (dumps_str s)
  | VList l =>
    do ts <- (fix go l := match l with
                          | [] => Ok []
                          | x :: r => do t <- dumps x; do ts <- go r; Ok (t :: ts)
                          end) l;
    Ok ([91%N] ++ join (u ", ") ts ++ [93%N])
  | VDict d =>
    do ts <- (fix go d := match d with
                          | [] => Ok []
                          | (k, x) :: r =>
                            do t <- dumps x; do ts <- go r; Ok ((dumps_str k ++ u ": " ++ t) :: ts)
                          end) d;
    Ok ([123%N] ++ join (u ", ") ts ++ [125%N])
  | VOther => Err TypeError
  end.

(** Blanks between tokens (json.loads, handler.py L212, L769). *)
Definition is_ws (c : N) : bool := ((c =? 32) || (c =? 9) || (c =? 10) || (c =? 13))%N.
Fixpoint ws (s : pystr) : pystr :=
  match s with
  | [] => []
  | c :: r => if is_ws c then ws r else s
  end.

(** Characters of a number (json.loads, handler.py L212, L769). *)
Definition num_char (c : N) : bool :=
  (((48 <=? c) && (c <=? 57)) || (c =? 45) || (c =? 43) || (c =? 46) || (c =? 101) || (c =? 69))%N.
Fixpoint span (p : N -> bool) (s : pystr) : pystr * pystr :=
  match s with
  | [] => ([], [])
  | c :: r => if p c then let (a, b) := span p r in (c :: a, b) else ([], s)
  end.

(** Value of one hexadecimal digit (json.loads, handler.py L212, L769). *)
Definition unhex (c : N) : option N :=
  (if (48 <=? c) && (c <=? 57) then Some (c - 48) else
   if (97 <=? c) && (c <=? 102) then Some (c - 87) else
   if (65 <=? c) && (c <=? 70) then Some (c - 55) else None)%N.
Definition unhex4 (a b c d : N) : option N :=
  match unhex a, unhex b, unhex c, unhex d with
  | Some a, Some b, Some c, Some d => Some (4096 * a + 256 * b + 16 * c + d)%N
  | _, _, _, _ => None
  end.

(** The character after a backslash, except 'u' (json.loads, handler.py L212, L769). *)
Definition unesc (c : N) : option N :=
  (if c =? 34 then Some 34 else
   if c =? 92 then Some 92 else
   if c =? 47 then Some 47 else
   if c =? 98 then Some 8 else
   if c =? 102 then Some 12 else
   if c =? 110 then Some 10 else
   if c =? 114 then Some 13 else
   if c =? 116 then Some 9 else None)%N.

Definition hi_surr (n : N) : bool := ((55296 <=? n) && (n <=? 56319))%N.
Definition lo_surr (n : N) : bool := ((56320 <=? n) && (n <=? 57343))%N.

(** The rest of a string after the opening quote: its characters and what follows the closing
    quote (json.decoder.py_scanstring, called from handler.py L212, L769).  An escaped high
    surrogate directly followed by an escaped low one is one character. *)
Fixpoint read_str (s : pystr) : option (pystr * pystr) :=
  let cons c o := match o with Some (a, b) => Some (c :: a, b) | None => None end in
  match s with
  | [] => None
  | c :: r =>
    if (c =? 34)%N then Some ([], r) else
    if (c =? 92)%N then
      match r with
      | [] => None
      | e :: r1 =>
        if (e =? 117)%N then
          match r1 with
          | a :: b :: c :: d :: r2 =>
            match unhex4 a b c d with
            | None => None
            | Some n =>
              if hi_surr n then
                match r2 with
                | c1 :: c2 :: a' :: b' :: c' :: d' :: r3 =>
                  if ((c1 =? 92) && (c2 =? 117))%N then
                    match unhex4 a' b' c' d' with
                    | None => None
                    | Some m =>
                      if lo_surr m
                      then cons (65536 + (n - 55296) * 1024 + (m - 56320))%N (read_str r3)
                      else cons n (read_str r2)
                    end
                  else cons n (read_str r2)
                | _ => cons n (read_str r2)
                end
              else cons n (read_str r2)
            end
          | _ => None
          end
        else match unesc e with
             | Some x => cons x (read_str r1)
             | None => None
             end
      end
    else if (c <? 32)%N then None
    else cons c (read_str r)
  end.

(** [s] without the prefix [p]. *)
Fixpoint strip_prefix (p s : pystr) : option pystr :=
  match p, s with
  | [], _ => Some s
  | a :: p', b :: s' => if (a =? b)%N then strip_prefix p' s' else None
  | _, _ => None
  end.

(** json.loads' recursive descent (handler.py L212, L769; metadata.py L167).  [value n s] reads
    one value from [s] and returns what follows it; [n] bounds the nesting of calls, which the length
    of the text bounds.  A repeated key keeps its last value. *)
Fixpoint value (n : nat) (s : pystr) : option (jv * pystr) :=
  match n with
  | O => None
  | S n =>
    match ws s with
    | [] => None
    | c :: r =>
      if (c =? 34)%N then
        match read_str r with Some (t, r') => Some (VStr t, r') | None => None end
      else if (c =? 91)%N then
        match ws r with
        | 93%N :: r' => Some (VList [], r')
        | _ => match elems n r with Some (l, r') => Some (VList l, r') | None => None end
        end
      else if (c =? 123)%N then
        match ws r with
        | 125%N :: r' => Some (VDict [], r')
        | _ => match members n [] r with Some (d, r') => Some (VDict d, r') | None => None end
        end
      else if num_char c then
        let (t, r') := span num_char (c :: r) in
        match parse_int t with Ok z => Some (VInt z, r') | Err _ => Some (VFloat t, r') end
      else match strip_prefix (u "null") (c :: r) with
           | Some r' => Some (VNull, r')
           | None =>
             match strip_prefix (u "true") (c :: r) with
             | Some r' => Some (VBool true, r')
             | None =>
               match strip_prefix (u "false") (c :: r) with
               | Some r' => Some (VBool false, r')
               | None => None
               end
             end
           end
    end
  end
with elems (n : nat) (s : pystr) : option (list jv * pystr) :=
  match n with
  | O => None
  | S n =>
    match value n s with
    | None => None
    | Some (v, r) =>
      match ws r with
      | c :: r' =>
        if (c =? 93)%N then Some ([v], r') else
        if (c =? 44)%N then
          match elems n r' with Some (l, r'') => Some (v :: l, r'') | None => None end
        else None
      | [] => None
      end
    end
  end
with members (n : nat) (acc : list (pystr * jv)) (s : pystr) : option (list (pystr * jv) * pystr) :=
  match n with
  | O => None
  | S n =>
    match ws s with
    | c :: r =>
      if (c =? 34)%N then
        match read_str r with
        | None => None
        | Some (k, r1) =>
          match ws r1 with
          | c1 :: r2 =>
            if (c1 =? 58)%N then
              match value n r2 with
              | None => None
              | Some (v, r3) =>
                match ws r3 with
                | c2 :: r4 =>
                  if (c2 =? 125)%N then Some (dset acc k v, r4) else
                  if (c2 =? 44)%N then members n (dset acc k v) r4 else None
                | [] => None
                end
              end
            else None
          | [] => None
          end
        end
      else None
    | [] => None
    end
  end.

(** json.loads of a whole text (handler.py L212, L769; metadata.py L167): JSONDecodeError, a
    ValueError, when it is not JSON or something follows the value. *)
Definition loads (s : pystr) : res jv :=
  match value (2 * length s + 2) s with
  | Some (v, r) => match ws r with [] => Ok v | _ => Err ValueError end
  | None => Err ValueError
  end.

Example loads_dumps_example :
  loads (u "{""a"" : [1, -20, 1.5e3, null, true], ""b\u00e9\ud83d\ude00\n"": {}, ""a"": ""x""}")
  = Ok (VDict [(u "a", VStr (u "x")); (u "b" ++ [233; 128512; 10]%N, VDict [])]).
Proof. vm_compute. reflexivity. Qed.

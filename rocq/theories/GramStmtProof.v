(** The grammar on the parts of a statement: whole statements, and their JSON. *)
From Coq Require Import String Ascii List Arith NArith ZArith Bool Lia ZifyBool ZifyNat ZifyN.
From Verif Require Import Base BaseProof JsonModel SqlRead FmtSpec ScrubModel InfixModel InfixSpec InfixProof OperModel OperSpec OperProof ValuesModel ValuesSpec StmtSpec TextSpec
  LitModel LitSpec GramModel GramSpec GramSimProof GramTextProof GramLexProof.
Import ListNotations.

(** ** Normalised forms *)
Lemma scrub_named nm a x : nice x -> scrub (PRes nm false a [x]) = scrub x.
Proof.
  unfold scrub. destruct x as [| | | | | | | |n g b toks]; try reflexivity. intros (-> & -> & ->). reflexivity.
Qed.
Lemma scrub_value x : nice x -> scrub x <> ONone -> scrub (PRes [] true false [named_tok "value" x]) = ODict [(u "value", scrub x)].
Proof.
  intros N S0. transitivity (match drop_null [(u "value", norm_list [scrub (named_tok "value" x)])] with [] => norm_list (v_iter (sem (named_tok "value" x))) | d => ODict d end).
  - unfold scrub at 1. cbn [sem v_out fst]. destruct x as [| | | | | | | |n g b toks]; try reflexivity. destruct N as (-> & -> & ->). cbn. reflexivity.
  - unfold named_tok. rewrite scrub_named by exact N. cbn [norm_list drop_null filter snd]. destruct (scrub x); try reflexivity. congruence.
Qed.
Lemma scrub_cols nm xs : Forall (fun x => exists t, x = PRes [] true false t) xs -> xs <> [] -> scrub (PRes nm false false xs) = norm_list (map scrub xs).
Proof.
  intros F NE. unfold scrub at 1. cbn [sem v_out fst].
  assert (I0 : forall acc, fold_left item_step (map (fun t => (t, sem t)) xs) acc = acc).
  { clear NE. induction F as [|x xs (t & ->) F IH]; intros acc; [reflexivity|]. cbn [map fold_left item_step fst named]. apply IH. }
  assert (I1 : flat_map iter_step (map (fun t => (t, sem t)) xs) = map scrub xs).
  { clear NE I0. induction F as [|x xs (t & ->) F IH]; [reflexivity|]. cbn [map flat_map iter_step fst]. rewrite IH. reflexivity. }
  rewrite I0, I1. assert (T : truthy (PRes nm false false xs) = true).
  { destruct F as [|x xs (t & ->) F]; [congruence|]. reflexivity. }
  rewrite T. reflexivity.
Qed.

Section Stmt.
Variables (ft : pystr -> bool) (k : nat).
Local Open Scope string_scope.
Local Open Scope list_scope.
Notation P := (parser (list lexeme)).
Notation reads := (reads_if k stop).

Lemma kw_here w r : kw lx w (K w :: r) = Ok (Some (tt, r)).
Proof. unfold kw, K. cbn [t_kw lx lx_kw kw_is]. now rewrite (proj2 (seqb_eq _ _) eq_refl). Qed.

(** ** SELECT *)
(** After an element of a select list. *)
Definition after_item (r : list lexeme) : Prop := stop r /\ no_alias lx r = Ok (Some (tt, r)).
Lemma after_comma r : after_item (Y "," :: r). Proof. split; [apply stop_comma|reflexivity]. Qed.
Lemma after_from r : after_item (K "from" :: r). Proof. repeat split. Qed.
Lemma column_reads n x ls : reads (expression lx ft k n) x ls -> reads_if k after_item (select_column lx ft k n) (column_of x) ls.
Proof.
  intros R r (ST & A) L. unfold select_column. rewrite (seq_some _ _ _ x r) by (now apply R). rewrite (seq_some _ _ _ tt r) by exact A. reflexivity.
Qed.
Lemma star_reads n : reads (expression lx ft k n) (PText (u "*")) [Y "*"].
Proof. intros r ST L. unfold expression, expr. apply alt_some. reflexivity. Qed.
Lemma column_name c : c <> u "*" -> column_of (PText c) = PRes [] true false [named_tok "value" (PText c)].
Proof. intros N. cbn [column_of]. destruct (seqb c (u "*")) eqn:E; [|reflexivity]. apply seqb_eq in E. congruence. Qed.
Lemma json_list l : json_of (norm_list l) = match l with [] => JNull | [x] => json_of x | _ => JList (map json_of l) end.
Proof. destruct l as [|x [|y l]]; reflexivity. Qed.
Lemma call_canonical f o : map low_char f = u o -> In o ["count"; "max"; "min"] -> canonical (map low_char f) = u o.
Proof. intros -> I0. cbn [In] in I0. destruct I0 as [<-|[<-|[<-|[]]]]; reflexivity. Qed.
Definition items_pv (i : items) : list pv :=
  match i with
  | IAll => [PRes [] true false [PText (u "*")]]
  | ICols l => map (fun c => PRes [] true false [named_tok "value" (PText c)]) l
  | ICount => [column_of (PCall (u "count") (PList [PText (u "*")]) [])]
  | IExtreme largest c => [column_of (PCall (u (if largest then "max" else "min")) (PList [PText c]) [])]
  end.
Lemma items_json_ok i li : items_lex i li -> json_of (scrub (PRes (u "select") false false (items_pv i))) = items_json i /\ scrub (PRes (u "select") false false (items_pv i)) <> ONone.
Proof.
  intros I0. destruct I0 as [|l NE NS|f F|f largest c F]; try (now split); cbn [items_pv].
  - rewrite scrub_cols; [|apply Forall_forall; intros x X; apply in_map_iff in X; destruct X as (c & <- & _); eauto|now destruct l].
    rewrite map_map. rewrite (map_ext (fun c => scrub (PRes [] true false [named_tok "value" (PText c)])) (fun c => ODict [(u "value", OText c)])) by reflexivity.
    split; [|destruct l as [|c [|c' l]]; [congruence|discriminate|discriminate]].
    rewrite json_list. destruct l as [|c [|c' l]]; [congruence|reflexivity|]. cbn [map items_json]. rewrite !map_map. reflexivity.
  - destruct largest; now split.
Qed.
Lemma items_ok n i li r : items_lex i li -> (1 < n)%nat -> (length (li ++ K "from" :: r) < k)%nat ->
  list_of k (select_column lx ft k n) (comma lx) (li ++ K "from" :: r) = Ok (Some (items_pv i, K "from" :: r)) /\
  kw_of lx ["distinct"; "top"] (li ++ K "from" :: r) = Ok None.
Proof.
  intros I0 N0 L. destruct I0 as [|l NE NS|f F|f largest c F]; cbn [items_pv].
  - split; [|reflexivity].
    apply list_one; [cbn in L; lia| |reflexivity]. apply (column_reads n (PText (u "*")) [Y "*"]); [apply star_reads|apply after_from|exact L].
  - split; [|destruct l as [|c [|c' l]]; [congruence|reflexivity|reflexivity]].
    apply (list_if k after_item); [apply after_comma| |now destruct l|apply after_from|reflexivity|exact L].
    clear L NE. induction l as [|c l IH]; cbn [map]; constructor.
    + rewrite <- column_name by (intros ->; apply NS; now left). apply column_reads. apply name_reads. lia.
    + apply IH. intros X. apply NS. now right.
  - split; [|reflexivity]. rewrite <- (call_canonical f "count" F) by (cbn; tauto).
    apply list_one; [cbn in L; lia| |reflexivity].
    apply (column_reads n (function_call f [PText (u "*")]) [LFun f; Y "("; Y "*"; Y ")"]); [|apply after_from|exact L].
    intros r0 ST L0. destruct n as [|n]; [lia|]. apply expr_atom; [|exact ST|exact L0].
    apply (call_ok ft k n f [Y "*"] [PText (u "*")]); [reflexivity|reflexivity|]. intros r1 L1. apply list_one; [lia| |reflexivity]. apply star_reads; [apply stop_close|exact L1].
  - split; [|reflexivity]. rewrite <- (call_canonical f (if largest then "max" else "min") F) by (destruct largest; cbn; tauto).
    apply list_one; [cbn in L; lia| |reflexivity].
    apply (column_reads n (function_call f [PText c]) [LFun f; Y "("; LName c; Y ")"]); [|apply after_from|exact L].
    intros r0 ST L0. destruct n as [|n]; [lia|]. apply expr_atom; [|exact ST|exact L0].
    apply (call_ok ft k n f [LName c] [PText c]); [reflexivity|reflexivity|]. intros r1 L1. apply list_one; [lia| |reflexivity]. apply name_reads; [lia|apply stop_close|exact L1].
Qed.

(** WHERE. *)
Definition where_pv (w : option sx) (x : option pv) : Prop :=
  match w, x with
  | None, None => True
  | Some s, Some x => read_tokens ft (tokens_of ft s) = Ok (TVal x) /\ nice x /\ scrub x <> ONone
  | _, _ => False
  end.
Lemma where_ok n w lw r x : where_lex w lw -> where_good ft w -> where_pv w x -> stop r -> kw lx "where" r = Ok None -> (length lw <= n)%nat -> (length (lw ++ r) < k)%nat ->
  option_of (GramModel.seq (kw lx "where") (fun _ => expression lx ft k n)) (lw ++ r) = Ok (Some (x, r)).
Proof.
  intros W G WP ST KW N0 L. destruct w as [s|], x as [x|]; try contradiction; cbn [where_lex where_good where_pv] in *.
  - destruct W as (l & C & ->). cbn [app length] in *. destruct (cond_reads ft k s l n C G) as (x' & R & _ & _ & E); [lia|].
    destruct WP as (R' & _). assert (x' = x) by congruence. subst x'.
    apply option_some. rewrite (seq_some _ _ _ tt (l ++ r)) by apply kw_here. apply E; [exact ST|lia].
  - subst lw. cbn [app]. apply option_none. now apply seq_none.
Qed.
(** ORDER BY. *)
Definition order_pv (o : option (pystr * bool)) : option (list pv) :=
  match o with
  | None => None
  | Some (c, desc) => Some [PRes [] true false (named_tok "value" (PText c) :: if desc then [named_tok "sort" (PText (u "desc"))] else [])]
  end.
Lemma order_ok n o r : (0 < n)%nat -> stop r -> kw lx "desc" r = Ok None -> kw lx "asc" r = Ok None -> kw lx "nulls" r = Ok None -> comma lx r = Ok None ->
  kws lx ["order"; "by"] r = Ok None -> (length (order_lex o ++ r) < k)%nat ->
  option_of (order_clause lx ft k n) (order_lex o ++ r) = Ok (Some (order_pv o, r)).
Proof.
  intros N0 ST KD KA KN C KO L. destruct o as [[c desc]|].
  - apply option_some. unfold order_clause. cbn [order_lex app length] in *. rewrite (seq_some _ _ _ tt (LName c :: (if desc then [K "desc"] else []) ++ r)) by reflexivity.
    apply list_one; [lia| |exact C]. unfold sort_column. set (rest := (if desc then [K "desc"] else []) ++ r) in *.
    assert (SR : stop rest) by (subst rest; destruct desc; [repeat split|exact ST]).
    rewrite (seq_some _ _ _ (PText c) rest) by (apply (name_reads ft k c n N0 rest SR); cbn [app length]; lia).
    rewrite (seq_some _ _ _ (if desc then Some (u "desc") else None) r).
    2: { subst rest. destruct desc; cbn [app].
         - apply option_some. apply alt_some. apply (act_some _ _ _ tt r); [apply kw_here|reflexivity].
         - apply option_none. unfold as_. rewrite alt_none; [|unfold GramModel.act; now rewrite KD]. unfold GramModel.act. now rewrite KA. }
    rewrite (seq_some _ _ _ tt r) by (now apply absent_none). destruct desc; reflexivity.
  - cbn [order_lex app]. apply option_none. unfold order_clause. now apply seq_none.
Qed.
(** LIMIT and OFFSET. *)
Definition limit_pv (lim : option (N * option N)) : option pv * option pv :=
  match lim with
  | None => (None, None)
  | Some (a, b) => (Some (PNum (Z.of_N a)), match b with Some b => Some (PNum (Z.of_N b)) | None => None end)
  end.
Lemma limit_ok n lim : (0 < n)%nat -> (length (limit_lex lim) < k)%nat -> limits lx ft k n (limit_lex lim) = Ok (Some (limit_pv lim, [])).
Proof.
  intros N0 L. destruct lim as [[a b]|]; [|reflexivity]. unfold limits.
  set (rest := match b with Some k0 => [K "offset"; LNum (Z.of_N k0)] | None => [] end).
  assert (LV : limit_value lx ft k n (LNum (Z.of_N a) :: rest) = Ok (Some (PNum (Z.of_N a), rest))).
  { apply compound_num. subst rest. destruct b; reflexivity. }
  change (limit_lex (Some (a, b))) with (K "limit" :: LNum (Z.of_N a) :: rest) in *.
  rewrite (seq_some _ _ _ None (K "limit" :: LNum (Z.of_N a) :: rest)) by (apply option_none; reflexivity).
  rewrite (seq_some _ _ _ tt (K "limit" :: LNum (Z.of_N a) :: rest)) by reflexivity.
  rewrite (seq_some _ _ _ (Some (PNum (Z.of_N a))) rest).
  2: { apply option_some. unfold limit_clause. rewrite (seq_some _ _ _ tt (LNum (Z.of_N a) :: rest)) by reflexivity. exact LV. }
  rewrite (seq_some _ _ _ (match b with Some b => Some (PNum (Z.of_N b)) | None => None end) []).
  - reflexivity.
  - subst rest. destruct b as [b|]; [|reflexivity]. apply option_some. unfold offset_clause. rewrite (seq_some _ _ _ tt [LNum (Z.of_N b)]) by reflexivity.
    rewrite (seq_some _ _ _ (PNum (Z.of_N b)) []) by (apply (num_reads ft k (Z.of_N b) n); [lia|exact N0|apply stop_nil|cbn in L |- *; lia]). reflexivity.
Qed.
(** What follows in a SELECT. *)
Lemma limit_heads (Q : list lexeme -> Prop) lim : (forall r, Q (K "limit" :: r)) -> Q [] -> Q (limit_lex lim).
Proof. intros A B. destruct lim as [[a b]|]; [apply A|exact B]. Qed.
Lemma order_heads (Q : list lexeme -> Prop) o lim : (forall r, Q (K "order" :: r)) -> (forall r, Q (K "limit" :: r)) -> Q [] -> Q (order_lex o ++ limit_lex lim).
Proof. intros A B C. destruct o as [[c d]|]; [apply A|]. now apply limit_heads. Qed.
Lemma where_heads (Q : list lexeme -> Prop) w lw r : where_lex w lw -> (forall r, Q (K "where" :: r)) -> Q r -> Q (lw ++ r).
Proof. intros W A B. destruct w as [s|]; cbn [where_lex] in W; [destruct W as (l & _ & ->); apply A|subst lw; exact B]. Qed.
Ltac heads := first [apply order_heads | apply limit_heads]; try reflexivity; try (repeat split).

Definition from_pv (t : pystr) (x : option pv) : list pv :=
  PRes (u "from") false false [PRes [] true false [PText t]] :: match x with Some x => [named_tok "where" x] | None => [] end.
Lemma from_ok n t w lw x o lim : where_lex w lw -> where_good ft w -> where_pv w x -> (length lw <= n)%nat ->
  (length (lw ++ order_lex o ++ limit_lex lim) < k)%nat ->
  from_clause lx ft k n (K "from" :: LName t :: lw ++ order_lex o ++ limit_lex lim) = Ok (Some (from_pv t x, order_lex o ++ limit_lex lim)).
Proof.
  intros W G WP N0 L. set (r := order_lex o ++ limit_lex lim) in *. unfold from_clause.
  rewrite (seq_some _ _ _ tt (LName t :: lw ++ r)) by reflexivity.
  rewrite (seq_some _ _ _ (PRes [] true false [PText t]) (lw ++ r)).
  2: { unfold table_source. do 2 rewrite (seq_some _ _ _ tt (LName t :: lw ++ r)) by reflexivity.
       rewrite (seq_some _ _ _ tt (LName t :: lw ++ r)).
       2: { apply absent_none. rewrite (seq_some _ _ _ t (lw ++ r)) by reflexivity. apply (where_heads (fun z => LB lx z = Ok None) w); [exact W|reflexivity|subst r; heads]. }
       rewrite (seq_some _ _ _ t (lw ++ r)) by reflexivity.
       rewrite (seq_some _ _ _ tt (lw ++ r)) by (apply absent_none, (where_heads (fun z => kw_of lx _ z = Ok None) w); [exact W|reflexivity|subst r; heads]).
       rewrite (seq_some _ _ _ tt (lw ++ r)) by (apply (where_heads (fun z => no_alias lx z = Ok (Some (tt, z))) w); [exact W|reflexivity|subst r; heads]).
       reflexivity. }
  rewrite (seq_some _ _ _ tt (lw ++ r)) by (apply absent_none, (where_heads (fun z => comma lx z = Ok None) w); [exact W|reflexivity|subst r; heads]).
  rewrite (seq_some _ _ _ tt (lw ++ r)) by (apply absent_none, (where_heads (fun z => kw_of lx _ z = Ok None) w); [exact W|reflexivity|subst r; heads]).
  rewrite (seq_some _ _ _ x r).
  2: { apply (where_ok n w); try assumption; subst r; heads. }
  rewrite (seq_some _ _ _ tt r) by (apply absent_none; subst r; heads). reflexivity.
Qed.
Definition select_pv (i : items) (t : pystr) (x : option pv) (o : option (pystr * bool)) (lim : option (N * option N)) : pv :=
  union_call (PRes (u "top") false false [] :: PRes (u "select") false false (items_pv i) :: from_pv t x) (order_pv o) (fst (limit_pv lim)) (snd (limit_pv lim)).
Lemma select_ok n i t w o lim li lw x : items_lex i li -> where_lex w lw -> where_good ft w -> where_pv w x ->
  let ls := K "select" :: li ++ K "from" :: LName t :: lw ++ order_lex o ++ limit_lex lim in
  (length ls < k)%nat -> (length ls <= n)%nat -> query lx ft k n ls = Ok (Some (select_pv i t x o lim, [])).
Proof.
  intros I0 W G WP ls L N0. unfold query. rewrite (seq_some _ _ _ tt ls) by reflexivity. rewrite (seq_some _ _ _ tt ls) by reflexivity.
  set (r := order_lex o ++ limit_lex lim) in *.
  assert (LL : (length ls = 3 + length li + length lw + length r)%nat) by (subst ls; cbn [length]; rewrite !app_length; cbn [length]; rewrite app_length; lia).
  rewrite (seq_some _ _ _ (PRes (u "top") false false [] :: PRes (u "select") false false (items_pv i) :: from_pv t x) r).
  2: { unfold unordered_sql. rewrite (seq_some _ _ _ tt ls) by reflexivity.
       destruct (items_ok n i li (LName t :: lw ++ r) I0) as (E & T); [lia|rewrite app_length; cbn [length]; rewrite app_length; lia|].
       rewrite (seq_some _ _ _ [PRes (u "top") false false []; PRes (u "select") false false (items_pv i)] (K "from" :: LName t :: lw ++ r)).
       - rewrite (seq_some _ _ _ (Some (from_pv t x)) r); [reflexivity|]. apply option_some. apply (from_ok n t w); try assumption; [lia|]. fold r. rewrite app_length. lia.
       - unfold selection, ls. rewrite (seq_some _ _ _ tt (li ++ K "from" :: LName t :: lw ++ r)) by reflexivity.
         rewrite (seq_some _ _ _ tt (li ++ K "from" :: LName t :: lw ++ r)) by (now apply absent_none).
         now rewrite (seq_some _ _ _ _ _ E). }
  rewrite (seq_some _ _ _ tt r) by (apply absent_none; subst r; heads).
  rewrite (seq_some _ _ _ (order_pv o) (limit_lex lim)).
  2: { subst r. apply order_ok; [lia|heads|heads|heads|heads|heads|heads|lia]. }
  rewrite (seq_some _ _ _ (limit_pv lim) []).
  2: { apply limit_ok; [lia|]. subst r. rewrite app_length in LL. lia. }
  reflexivity.
Qed.

(** ** The other statements *)
Lemma names_ok cs r : cs <> [] -> comma lx r = Ok None -> (length (separated (map (fun c => [LName c]) cs) ++ r) < k)%nat ->
  list_of k (var_name lx) (comma lx) (separated (map (fun c => [LName c]) cs) ++ r) = Ok (Some (cs, r)).
Proof.
  intros NE C L. apply (list_if k (fun _ => True)); try assumption; try exact I; [intros; exact I|]. clear NE L.
  induction cs as [|c cs IH]; cbn [map]; constructor; [|exact IH]. intros r0 _ _. reflexivity.
Qed.
Lemma consts_ok n vs r : (0 < n)%nat -> vs <> [] -> stop r -> comma lx r = Ok None -> (length (separated (map const_lex vs) ++ r) < k)%nat ->
  list_of k (expression lx ft k n) (comma lx) (separated (map const_lex vs) ++ r) = Ok (Some (map const_pv vs, r)).
Proof.
  intros N0 NE ST C L. apply (list_if k stop); try assumption; [intros; apply stop_comma| |now destruct vs]. clear NE L.
  induction vs as [|v vs IH]; cbn [map]; constructor; [|exact IH]. now apply const_reads.
Qed.
Definition insert_pv (t : pystr) (cs : list pystr) (vs : list const) : pv :=
  PCall (u "insert") (PList [PText t])
    [(u "columns", PRes [] false false (map PText cs));
     (u "query", PDict [(u "select", PList (map (fun x => PDict [(u "value", x)]) (map const_pv vs)))])].
Lemma insert_act t cs vs : (2 <= length cs)%nat -> (2 <= length vs)%nat ->
  (do rs <- mapM to_row [map const_pv vs]; do q <- to_values rs; Ok (to_insert_call t cs [] q)) = Ok (insert_pv t cs vs).
Proof.
  intros C V. destruct vs as [|v1 [|v2 vs]]; try (cbn in V; lia). destruct cs as [|c1 [|c2 cs]]; try (cbn in C; lia). reflexivity.
Qed.
Lemma insert_ok n (tab : bool) t cs vs : (2 <= length cs)%nat -> (2 <= length vs)%nat ->
  let ls := K "insert" :: K "into" :: (if tab then [K "table"] else []) ++ LName t ::
       Y "(" :: separated (map (fun c => [LName c]) cs) ++ Y ")" :: K "values" ::
       Y "(" :: separated (map const_lex vs) ++ [Y ")"] in
  (length ls < k)%nat -> (0 < n)%nat -> insert lx ft k n ls = Ok (Some (insert_pv t cs vs, [])).
Proof.
  intros C V ls L N0. unfold insert.
  set (r2 := Y "(" :: separated (map const_lex vs) ++ [Y ")"]) in *.
  set (r1 := separated (map (fun c => [LName c]) cs) ++ Y ")" :: K "values" :: r2) in *.
  set (tl := (if tab then [K "table"] else []) ++ LName t :: Y "(" :: r1) in *.
  assert (L1 : (length r1 < k)%nat) by (subst ls tl; cbn [length] in L; rewrite app_length in L; cbn [length] in L; lia).
  assert (L2 : (length r2 < k)%nat) by (subst r1; rewrite app_length in L1; cbn [length] in L1; lia).
  rewrite (seq_some _ _ _ tt (K "into" :: tl)) by reflexivity.
  rewrite (seq_some _ _ _ tt (K "into" :: tl)) by reflexivity.
  rewrite (seq_some _ _ _ tt tl) by reflexivity.
  rewrite (seq_some _ _ _ (if tab then Some tt else None) (LName t :: Y "(" :: r1)).
  2: { subst tl. destruct tab; reflexivity. }
  rewrite (seq_some _ _ _ t (Y "(" :: r1)) by reflexivity.
  rewrite (seq_some _ _ _ (Some cs) (K "values" :: r2)).
  2: { apply option_some. rewrite (seq_some _ _ _ tt r1) by reflexivity. rewrite (seq_some _ _ _ cs (Y ")" :: K "values" :: r2)); [reflexivity|].
       apply names_ok; [destruct cs; [cbn in C; lia|discriminate]|reflexivity|exact L1]. }
  do 3 rewrite (seq_some _ _ _ tt (K "values" :: r2)) by reflexivity.
  rewrite (seq_some _ _ _ tt r2) by reflexivity.
  rewrite (seq_some _ _ _ [map const_pv vs] []).
  2: { apply list_one; [lia| |reflexivity]. unfold row, r2. rewrite (seq_some _ _ _ tt (separated (map const_lex vs) ++ [Y ")"])) by reflexivity.
       rewrite (seq_some _ _ _ (map const_pv vs) [Y ")"]); [reflexivity|].
       apply consts_ok; [exact N0|destruct vs; [cbn in V; lia|discriminate]|apply stop_close|reflexivity|]. subst r2. cbn [length] in L2. lia. }
  unfold GramModel.act, ret. now rewrite (insert_act t cs vs C V).
Qed.

Definition where_here (w : option sx) (lw : list lexeme) (x : option pv) : Prop := where_lex w lw /\ where_good ft w /\ where_pv w x.
Lemma final_where n w lw x : where_here w lw x -> (length lw <= n)%nat -> (length lw < k)%nat -> where_clause lx ft k n lw = Ok (Some (x, [])).
Proof.
  intros (W & G & WP) N0 L. rewrite <- (app_nil_r lw). unfold where_clause. apply (where_ok n w); try assumption; [apply stop_nil|reflexivity|]. rewrite app_nil_r. exact L.
Qed.
Definition delete_pv (t : pystr) (x : option pv) : pv := PCall (u "delete") (PList [PText t]) (where_kwarg x).
Lemma delete_ok n t w lw x : where_here w lw x -> let ls := K "delete" :: K "from" :: LName t :: lw in
  (length ls < k)%nat -> (length ls <= n)%nat -> delete lx ft k n ls = Ok (Some (delete_pv t x, [])).
Proof.
  intros W ls L N0. unfold delete. rewrite (seq_some _ _ _ tt (K "from" :: LName t :: lw)) by reflexivity.
  rewrite (seq_some _ _ _ tt (LName t :: lw)) by reflexivity. rewrite (seq_some _ _ _ t lw) by reflexivity.
  subst ls. cbn [length] in *. rewrite (seq_some _ _ _ x []); [reflexivity|]. apply (final_where n w); [exact W|lia|lia].
Qed.
Definition set_pv (sets : list (pystr * const)) : list (pystr * pv) := map (fun p => (fst p, const_pv (snd p))) sets.
Definition update_pv (t : pystr) (sets : list (pystr * const)) (x : option pv) : pv :=
  PCall (u "update") (PList [PText t]) ((u "set", PList [set_tok (set_pv sets)]) :: where_kwarg x).
Lemma update_ok n t sets w lw x : where_here w lw x -> sets <> [] ->
  let ls := K "update" :: LName t :: K "set" :: separated (map (fun p => LName (fst p) :: Y "=" :: const_lex (snd p)) sets) ++ lw in
  (length ls < k)%nat -> (length ls <= n)%nat -> update lx ft k n ls = Ok (Some (update_pv t sets x, [])).
Proof.
  intros W NE ls L N0. unfold update. set (r := separated _ ++ lw) in *.
  rewrite (seq_some _ _ _ tt (LName t :: K "set" :: r)) by reflexivity. rewrite (seq_some _ _ _ t (K "set" :: r)) by reflexivity.
  rewrite (seq_some _ _ _ tt r) by reflexivity. subst ls. cbn [length] in *.
  rewrite (seq_some _ _ _ (set_pv sets) lw).
  - rewrite (seq_some _ _ _ x []); [reflexivity|]. subst r. rewrite app_length in *. apply (final_where n w); [exact W|lia|lia].
  - assert (H : stop lw /\ comma lx lw = Ok None).
    { rewrite <- (app_nil_r lw). destruct W as (W & _). split; [apply (where_heads stop w); [exact W|repeat split|apply stop_nil]|apply (where_heads (fun z => comma lx z = Ok None) w); [exact W|reflexivity|reflexivity]]. }
    destruct H as (H1 & H2).
    apply (list_if k stop); try assumption; [intros; apply stop_comma| |now destruct sets|subst r; lia]. assert (N1 : (0 < n)%nat) by lia. clear r L N0 NE.
    induction sets as [|[c v] sets IH]; cbn [map set_pv]; constructor; [|exact IH]. cbn [fst snd].
    intros r0 ST L0. cbn [app length] in *. unfold assignment. rewrite (seq_some _ _ _ c (Y "=" :: const_lex v ++ r0)) by reflexivity.
    rewrite (seq_some _ _ _ tt (const_lex v ++ r0)) by reflexivity.
    rewrite (seq_some _ _ _ (const_pv v) r0); [reflexivity|]. apply const_reads; [exact N1|exact ST|lia].
Qed.

(** ** Whole statements *)
Definition cmd_pv (c : cmd sx) (x : option pv) : pv :=
  match c with
  | Select i t w o lim => select_pv i t x o lim
  | Insert t cs vs => insert_pv t cs vs
  | Update t sets w => update_pv t sets x
  | Delete t w => delete_pv t x
  end.
Definition cmd_where (c : cmd sx) : option sx :=
  match c with Select _ _ w _ _ => w | Insert _ _ _ => None | Update _ _ w => w | Delete _ w => w end.
Theorem whole_ok c ls x : good_cmd ft c -> cmd_lex c ls -> where_pv (cmd_where c) x -> (length ls < k)%nat -> whole lx ft k k ls = Ok (Some (cmd_pv c x, [])).
Proof.
  intros G C X L. unfold whole. rewrite (seq_some _ _ _ (cmd_pv c x) []); [reflexivity|]. unfold statement. cbn [first].
  destruct C as [i t w o lim li lw I0 W|tab t cs vs|t sets w lw W|t w lw W]; cbn [good_cmd cmd_where cmd_pv] in *.
  - apply alt_some. apply (select_ok k i t w); try assumption. lia.
  - destruct G as (G1 & G2). rewrite alt_none by reflexivity. apply alt_some. apply insert_ok; try assumption. lia.
  - destruct G as (G1 & G2 & G3). do 2 rewrite alt_none by reflexivity. apply alt_some. apply (update_ok k t sets w); try assumption; [now repeat split|lia].
  - do 3 rewrite alt_none by reflexivity. apply alt_some. apply (delete_ok k t w); try assumption; [now repeat split|lia].
Qed.
End Stmt.

(** ** Their JSON *)
Section Json.
Variable ft : pystr -> bool.
Lemma where_exists w : where_good ft w -> exists x, where_pv ft w x.
Proof. destruct w as [s|]; cbn [where_good]; intros G; [|now exists None]. destruct (cond_value ft s G) as (x & H). now exists (Some x). Qed.
(** The condition of the parsed statement. *)
Definition wjson (x : option pv) : option json := option_map (fun x => json_of (scrub x)) x.
Lemma where_json w x : where_pv ft w x -> optR (cond_json ft) w = Ok (wjson x).
Proof.
  destruct w as [s|], x as [x|]; cbn [where_pv]; try contradiction; [|reflexivity]. intros (R & _). cbn [optR]. unfold cond_json. now rewrite R.
Qed.
Definition wout (x : option pv) : list (pystr * out) := match x with Some x => [(u "where", scrub x)] | None => [] end.
Lemma wout_json x : map (fun kv => (fst kv, json_of (snd kv))) (wout x) = opt "where" (wjson x).
Proof. destruct x; reflexivity. Qed.
Lemma drop_app a b : drop_null (a ++ b) = drop_null a ++ drop_null b.
Proof. unfold drop_null. now rewrite filter_app. Qed.
Lemma drop_one k v d : v <> ONone -> drop_null ((k, v) :: d) = (k, v) :: drop_null d.
Proof. intros N. unfold drop_null. cbn [filter snd]. destruct v; try reflexivity. congruence. Qed.
Lemma where_items w x : where_pv ft w x -> drop_null (map (fun kv => (fst kv, v_out (sem (snd kv)))) (where_kwarg x)) = wout x.
Proof.
  destruct w as [s|], x as [x|]; cbn [where_pv]; try contradiction; [|reflexivity]. intros (_ & N & S0). pose proof (scrub_named (u "where") false x N) as E.
  transitivity (drop_null [(u "where", scrub (PRes (u "where") false false [x]))]); [reflexivity|]. rewrite E. now rewrite drop_one.
Qed.

Definition lim_out (lim : option (N * option N)) : list (pystr * out) :=
  match lim with
  | None => []
  | Some (a, b) => (u "limit", ONum (Z.of_N a)) :: match b with Some b => [(u "offset", ONum (Z.of_N b))] | None => [] end
  end.
Definition order_out (o : option (pystr * bool)) : list (pystr * out) :=
  match o with
  | None => []
  | Some (c, desc) => [(u "orderby", ODict ((u "value", OText c) :: if desc then [(u "sort", OText (u "desc"))] else []))]
  end.
Lemma scrub_dict d : scrub (PDict d) = ODict (drop_null (map (fun kv => (fst kv, scrub (snd kv))) d)).
Proof. reflexivity. Qed.
Lemma select_out i li t w x o lim : items_lex i li -> where_pv ft w x ->
  scrub (select_pv i t x o lim) =
  ODict ((u "select", scrub (PRes (u "select") false false (items_pv i))) :: (u "from", OText t) :: wout x ++ order_out o ++ lim_out lim).
Proof.
  intros I0 W. destruct (items_json_ok i li I0) as (_ & S0). unfold select_pv, union_call. rewrite scrub_dict. f_equal.
  cbn [group_items flat_map from_pv]. cbn [app map fst snd].
  set (I1 := PRes (u "select") false false (items_pv i)) in *.
  change (scrub (PList [I1])) with (scrub I1).
  change (drop_null ((u "top", scrub (PList [PRes (u "top") false false []])) :: ?d)) with (drop_null d).
  rewrite drop_one by exact S0. f_equal. rewrite drop_one by discriminate. f_equal.
  rewrite map_app, drop_app. f_equal.
  - destruct w as [s|], x as [x|]; cbn [where_pv] in W; try contradiction; [|reflexivity]. destruct W as (_ & N & S1).
    pose proof (scrub_named (u "where") false x N) as E.
    transitivity (drop_null [(u "where", scrub (PRes (u "where") false false [x]))]); [reflexivity|]. rewrite E. now rewrite drop_one.
  - destruct o as [[c [|]]|], lim as [[a [b|]]|]; reflexivity.
Qed.
Lemma select_json i li t w x o lim : items_lex i li -> where_pv ft w x -> parsed ft (Select i t w o lim) = Ok (json_of (scrub (select_pv i t x o lim))).
Proof.
  intros I0 W. cbn [parsed]. rewrite (where_json w x W). cbn [bind]. f_equal. rewrite (select_out i li t w) by assumption.
  destruct (items_json_ok i li I0) as (S0 & _). unfold select_stmt. cbn [json_of]. cbn [map fst snd]. rewrite S0. rewrite !map_app, wout_json. cbn [app].
  do 3 f_equal. destruct o as [[c [|]]|], lim as [[a [b|]]|]; reflexivity.
Qed.
Lemma const_json c : json_of (scrub (const_pv c)) = cjson c /\ scrub (const_pv c) <> ONone /\ nice (const_pv c).
Proof. destruct c as [z|s]; cbn [const_pv]; [destruct (z <? 0)%Z|]; repeat split; discriminate. Qed.
Lemma scrub_names nm cs : cs <> [] -> scrub (PRes nm false false (map PText cs)) = norm_list (map OText cs).
Proof.
  intros NE. unfold scrub. cbn [sem v_out fst].
  assert (I0 : forall acc, fold_left item_step (map (fun t => (t, sem t)) (map PText cs)) acc = acc) by (clear NE; induction cs as [|c cs IH]; intros acc; [reflexivity|apply IH]).
  assert (I1 : flat_map iter_step (map (fun t => (t, sem t)) (map PText cs)) = map OText cs) by (clear NE I0; induction cs as [|c cs IH]; [reflexivity|cbn; now f_equal]).
  rewrite I0, I1. destruct cs; [congruence|]. reflexivity.
Qed.
Lemma norm_many l : (2 <= length l)%nat -> norm_list l = OList l.
Proof. destruct l as [|a [|b l]]; cbn; intros; [lia|lia|reflexivity]. Qed.
Local Ltac nodup := repeat (apply NoDup_cons; [let X := fresh in intros X; vm_compute in X; intuition discriminate|]); apply NoDup_nil.
Lemma insert_json t cs vs : (2 <= length cs)%nat -> (2 <= length vs)%nat ->
  exists j, parsed ft (Insert t cs vs) = Ok j /\ same_dict (json_of (scrub (insert_pv t cs vs))) j /\ keys_once (json_of (scrub (insert_pv t cs vs))).
Proof.
  intros C V. eexists. split; [reflexivity|].
  assert (E : scrub (insert_pv t cs vs) = ODict [(u "columns", OList (map OText cs));
     (u "query", ODict [(u "select", OList (map (fun v => ODict [(u "value", scrub (const_pv v))]) vs))]); (u "insert", OText t)]).
  { unfold insert_pv. unfold scrub at 1. cbn [sem]. unfold v_out at 1. cbn [fst]. cbn [map fst snd].
    change (v_out (sem (PRes [] false false (map PText cs)))) with (scrub (PRes [] false false (map PText cs))).
    rewrite scrub_names by (destruct cs; [cbn in C; lia|discriminate]). rewrite (norm_many (map OText cs)) by (rewrite map_length; exact C).
    set (Q := PDict [(u "select", _)]).
    assert (EQ : v_out (sem Q) = ODict [(u "select", OList (map (fun v => ODict [(u "value", scrub (const_pv v))]) vs))]).
    { subst Q. change (v_out (sem (PDict ?d))) with (scrub (PDict d)). rewrite scrub_dict. cbn [map fst snd].
      match goal with |- context [scrub (PList ?l)] => change (scrub (PList l)) with (norm_list (map scrub l)) end.
      rewrite !map_map. rewrite norm_many by (rewrite map_length; exact V). rewrite drop_one by discriminate. do 4 f_equal.
      apply map_ext. intros v. rewrite scrub_dict. cbn [map fst snd]. now rewrite drop_one by apply const_json. }
    rewrite EQ. reflexivity. }
  rewrite E. unfold insert_stmt. cbn [json_of map fst snd]. rewrite !map_map.
  rewrite (map_ext (fun x => json_of (OText x)) JStr) by reflexivity.
  rewrite (map_ext (fun x => json_of (ODict [(u "value", scrub (const_pv x))])) (fun x => StmtSpec.val (cjson x))) by (intros v; cbn [json_of map fst snd]; now rewrite (proj1 (const_json v))).
  cbn [same_dict]. split; [|cbn; nodup]. intros key. cbn [dget]. destruct (seqb key (u "columns")) eqn:E1.
  - apply seqb_eq in E1. subst key. reflexivity.
  - destruct (seqb key (u "query")) eqn:E2; [apply seqb_eq in E2; subst key; reflexivity|]. reflexivity.
Qed.
Lemma delete_json t w x : where_pv ft w x -> exists j, parsed ft (Delete t w) = Ok j /\ same_dict (json_of (scrub (delete_pv t x))) j /\ keys_once (json_of (scrub (delete_pv t x))).
Proof.
  intros W. eexists. cbn [parsed]. rewrite (where_json w x W). cbn [bind]. split; [reflexivity|].
  unfold delete_pv, scrub. cbn [sem]. unfold v_out at 1. cbn [fst]. rewrite (where_items w x W). unfold simple_op. cbn [json_of].
  split; [|destruct x as [x|]; cbn; nodup].
  destruct x as [x|]; intros key; [|reflexivity].
  transitivity (if seqb key (u "where") then Some (json_of (scrub x)) else if seqb key (u "delete") then Some (JStr t) else None); [reflexivity|].
  transitivity (if seqb key (u "delete") then Some (JStr t) else if seqb key (u "where") then Some (json_of (scrub x)) else None); [|reflexivity].
  destruct (seqb key (u "where")) eqn:E2; [apply seqb_eq in E2; subst key; reflexivity|]. reflexivity.
Qed.
Lemma set_out sets : sets <> [] -> NoDup (map fst sets) -> Forall (fun p => fst p <> []) sets ->
  scrub (PList [set_tok (set_pv sets)]) = ODict (map (fun p => (fst p, scrub (const_pv (snd p)))) sets).
Proof.
  intros NE ND F. change (scrub (PList [set_tok (set_pv sets)])) with (scrub (set_tok (set_pv sets))). unfold set_tok, scrub at 1.
  set (G := map (fun p => PRes [] true false [PText (fst p); snd p]) (set_pv sets)). set (A := map (fun p => PRes (fst p) false true [snd p]) (set_pv sets)).
  cbn [sem]. unfold v_out at 1. cbn [fst].
  assert (T : truthy (PRes (u "set") true false (G ++ A)) = true) by (subst G; destruct sets; [congruence|reflexivity]).
  rewrite T. rewrite map_app, fold_left_app.
  assert (G0 : forall acc, fold_left item_step (map (fun t => (t, sem t)) G) acc = acc).
  { subst G. clear. induction sets as [|p sets IH]; intros acc; [reflexivity|]. cbn [set_pv map fold_left item_step fst named]. apply IH. }
  rewrite G0.
  assert (A0 : forall acc, (forall p, In p sets -> ~ In (fst p) (dkeys acc)) ->
    fold_left item_step (map (fun t => (t, sem t)) A) acc = acc ++ map (fun p => (fst p, [scrub (const_pv (snd p))])) sets).
  { subst A. clear NE T G0 G. induction sets as [|[c v] sets IH]; intros acc D; [cbn; symmetry; apply app_nil_r|].
    cbn [set_pv map fold_left fst snd]. inversion_clear ND. inversion_clear F. cbn [fst] in *.
    rewrite IH; [| assumption | assumption |].
    - unfold item_step at 1. cbn [fst snd]. destruct c as [|a c]; [congruence|]. cbn [named].
      change (v_out (sem (PRes (a :: c) false true [const_pv v]))) with (scrub (PRes (a :: c) false true [const_pv v])).
      rewrite scrub_named by apply const_json. unfold add. rewrite (proj2 (dget_None acc (a :: c))) by (apply (D (a :: c, v)); now left).
      assert (DS : forall (d : list (pystr * list out)) k0 y, ~ In k0 (dkeys d) -> dset d k0 y = d ++ [(k0, y)]).
      { clear. induction d as [|[a b] d IH]; intros k0 y H; [reflexivity|]. cbn [dset]. destruct (seqb k0 a) eqn:E0.
        - exfalso. apply H. left. symmetry. now apply seqb_eq.
        - cbn [app]. f_equal. apply IH. intros X. apply H. now right. }
      rewrite DS by (apply (D (a :: c, v)); now left). rewrite <- app_assoc. reflexivity.
    - intros p P1 K0. unfold item_step in K0. cbn [fst snd] in K0. destruct c as [|a c]; [congruence|]. cbn [named] in K0. unfold add in K0.
      rewrite (proj2 (dget_None acc (a :: c))) in K0 by (apply (D (a :: c, v)); now left).
      assert (DK : forall (d : list (pystr * list out)) k0 y z, In z (dkeys (dset d k0 y)) -> z = k0 \/ In z (dkeys d)).
      { clear. induction d as [|[a b] d IH]; intros k0 y z H; [cbn in H; destruct H as [<-|[]]; now left|]. cbn [dset] in H. destruct (seqb k0 a).
        - right. exact H.
        - destruct H as [<-|H]; [right; now left|]. destruct (IH _ _ _ H); [now left|right; now right]. }
      destruct (DK _ _ _ _ K0) as [E1|K1].
      + match goal with H : ~ In _ (map fst sets) |- _ => apply H end. rewrite <- E1. now apply in_map.
      + apply (D p); [now right|exact K1]. }
  rewrite A0 by (intros p _ []). cbn [app]. rewrite map_map. cbn [fst snd norm_list].
  assert (D0 : drop_null (map (fun x => (fst x, scrub (const_pv (snd x)))) sets) = map (fun x => (fst x, scrub (const_pv (snd x)))) sets).
  { clear. induction sets as [|p sets IH]; [reflexivity|]. cbn [map]. rewrite drop_one by apply const_json. now f_equal. }
  match goal with |- match ?D with _ => _ end = _ => replace D with (map (fun x : list N * const => (fst x, scrub (const_pv (snd x)))) sets) by (symmetry; exact D0) end. destruct sets; [congruence|]. reflexivity.
Qed.
Lemma update_json t sets w x : sets <> [] -> NoDup (map fst sets) -> Forall (fun p => fst p <> []) sets -> where_pv ft w x ->
  exists j, parsed ft (Update t sets w) = Ok j /\ same_dict (json_of (scrub (update_pv t sets x))) j /\ keys_once (json_of (scrub (update_pv t sets x))).
Proof.
  intros NE ND F W. eexists. cbn [parsed]. rewrite (where_json w x W). cbn [bind]. split; [reflexivity|].
  assert (E : scrub (update_pv t sets x) = ODict ((u "set", ODict (map (fun p => (fst p, scrub (const_pv (snd p)))) sets)) :: wout x ++ [(u "update", OText t)])).
  { unfold update_pv, scrub at 1. cbn [sem]. unfold v_out at 1. cbn [fst]. cbn [map fst snd].
    pose proof (set_out sets NE ND F) as S0. unfold scrub at 1 in S0. rewrite S0. rewrite drop_one by discriminate. rewrite (where_items w x W). unfold simple_op. destruct x; reflexivity. }
  rewrite E. cbn [json_of map fst snd]. rewrite map_map. cbn [fst snd].
  rewrite (map_ext (fun p => (fst p, json_of (scrub (const_pv (snd p))))) (fun kv => (fst kv, cjson (snd kv)))) by (intros v; now rewrite (proj1 (const_json (snd v)))).
  rewrite map_app, wout_json. unfold update_stmt. set (S0 := JDict (map (fun kv => (fst kv, cjson (snd kv))) sets)). cbn [same_dict].
  split; [|destruct (wjson x); cbn; nodup]. intros key.
  destruct (wjson x) as [wj|]; cbn [opt app map fst snd json_of dget].
  - destruct (seqb key (u "set")) eqn:E1; [apply seqb_eq in E1; subst key; reflexivity|].
    destruct (seqb key (u "where")) eqn:E2; [apply seqb_eq in E2; subst key; reflexivity|]. reflexivity.
  - destruct (seqb key (u "set")) eqn:E1; [apply seqb_eq in E1; subst key; reflexivity|]. reflexivity.
Qed.
Definition set_names (c : cmd sx) : list pystr := match c with Update _ sets _ => map fst sets | _ => [] end.
Theorem cmd_json c ls x : good_cmd ft c -> cmd_lex c ls -> Forall (fun n => n <> []) (set_names c) -> where_pv ft (cmd_where c) x ->
  exists j, parsed ft c = Ok j /\ same_dict (json_of (scrub (cmd_pv c x))) j /\ keys_once (json_of (scrub (cmd_pv c x))).
Proof.
  intros G C F X. destruct C as [i t w o lim li lw I0 W|tab t cs vs|t sets w lw W|t w lw W]; cbn [good_cmd cmd_where cmd_pv set_names] in *.
  - exists (json_of (scrub (select_pv i t x o lim))). split; [now apply (select_json i li)|]. rewrite (select_out i li t w) by assumption. split; [intros key; reflexivity|].
    destruct x, o as [[? ?]|], lim as [[? [?|]]|]; cbn; nodup.
  - destruct G. now apply insert_json.
  - destruct G as (G1 & G2 & G3). apply update_json; try assumption. clear - F. induction sets; inversion_clear F; constructor; auto.
  - now apply delete_json.
Qed.
End Json.

(** ** Names are never empty *)
Lemma writes_name v t next : writes (LName v) t next -> v <> [].
Proof. inversion 1 as [|? ? P _|? ? P _| | | | |]; subst; destruct P as (P & _); exact P. Qed.
Lemma spelled_names s ls v : spelled s ls -> In (LName v) ls -> v <> [].
Proof.
  induction 1 as [|x t w W T|x t w rest ls W B NE SP IH]; [intros []| |].
  - intros [->|[]]. now apply (writes_name v t w).
  - intros [->|H]; [now apply (writes_name v t (w ++ rest))|now apply IH].
Qed.
Lemma separated_in x l lls : In x l -> In l lls -> In x (separated lls).
Proof.
  intros X. induction lls as [|a lls IH]; [intros []|]. intros [->|H].
  - destruct lls; [exact X|]. cbn [separated]. apply in_or_app. now left.
  - destruct lls as [|b lls]; [destruct H|]. cbn [separated] in *. apply in_or_app. right. right. now apply IH.
Qed.
Lemma set_names_ok c ls s : cmd_lex c ls -> spelled s ls -> Forall (fun n => n <> []) (set_names c).
Proof.
  intros C SP. destruct C as [i t w o lim li lw I0 W|tab t cs vs|t sets w lw W|t w lw W]; cbn [set_names]; try constructor.
  apply Forall_forall. intros v H. apply (spelled_names s _ v SP). do 3 right. apply in_or_app. left. apply in_map_iff in H. destruct H as (p & <- & P).
  eapply separated_in; [|apply in_map, P]. now left.
Qed.

(** ** A statement *)
Theorem statement_parsed uname more ft c ls text : good_cmd ft c -> cmd_lex c ls -> spells ls text ->
  exists o j, parse_mysql uname more ft text = Ok o /\ parsed ft c = Ok j /\ same_dict (json_of o) j /\ keys_once (json_of o).
Proof.
  intros G C S0.
  destruct (where_exists ft (cmd_where c)) as (x & X); [destruct c; cbn in G |- *; tauto|].
  assert (SN : Forall (fun n => n <> []) (set_names c)) by (destruct S0 as (l & s & semi & sp & _ & _ & SP & _); now apply (set_names_ok c ls s)).
  destruct (cmd_json ft c ls x G C SN X) as (j & P & SD).
  exists (scrub (cmd_pv c x)), j. split; [|now split]. apply (text_of_parts uname more ft ls); [exact S0|destruct C; discriminate|].
  intros k L. now apply whole_ok.
Qed.

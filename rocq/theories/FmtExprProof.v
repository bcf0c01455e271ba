(** * Lemmas: the expressions the SQL writer emits *)
From Coq Require Import String Ascii List NArith ZArith QArith Bool Lia ZifyBool ZifyNat ZifyN.
From Verif Require Import Base BaseProof JsonModel JsonProof CreateModel DotsModel DotsSpec DotsProof SqlLex SqlRead FmtModel FmtSpec FmtLexProof.
Import ListNotations.
Open Scope Z_scope.

Definition op_key (o : binop) : pystr :=
  u match o with
  | OConcat => "concat" | OMul => "mul" | ODiv => "div" | OMod => "mod" | OAdd => "add" | OSub => "sub"
  | OBand => "binary_and" | OBor => "binary_or" | OLt => "lt" | OLte => "lte" | OGt => "gt" | OGte => "gte"
  | OEq => "eq" | ONeq => "neq" | OLike => "like" | ONotLike => "not_like" | ORlike => "rlike"
  | ONotRlike => "not_rlike" | OAnd => "and" | OOr => "or"
  end.
Definition op_text (o : binop) : pystr :=
  u match o with
  | OConcat => " || " | OMul => " * " | ODiv => " / " | OMod => " % " | OAdd => " + " | OSub => " - "
  | OBand => " & " | OBor => " | " | OLt => " < " | OLte => " <= " | OGt => " > " | OGte => " >= "
  | OEq => " = " | ONeq => " <> " | OLike => " LIKE " | ONotLike => " NOT LIKE " | ORlike => " RLIKE "
  | ONotRlike => " NOT RLIKE " | OAnd => " AND " | OOr => " OR "
  end.
Definition op_toks (o : binop) : list token :=
  match o with
  | OConcat => [TSym (u "||")] | OMul => [TSym (u "*")] | ODiv => [TSym (u "/")] | OMod => [TSym (u "%")]
  | OAdd => [TSym (u "+")] | OSub => [TSym (u "-")] | OBand => [TSym (u "&")] | OBor => [TSym (u "|")]
  | OLt => [TSym (u "<")] | OLte => [TSym (u "<=")] | OGt => [TSym (u ">")] | OGte => [TSym (u ">=")]
  | OEq => [TSym (u "=")] | ONeq => [TSym (u "<>")] | OLike => [TWord (u "LIKE")]
  | ONotLike => [TWord (u "NOT"); TWord (u "LIKE")] | ORlike => [TWord (u "RLIKE")]
  | ONotRlike => [TWord (u "NOT"); TWord (u "RLIKE")] | OAnd => [TWord (u "AND")] | OOr => [TWord (u "OR")]
  end.
Definition in_text (n : bool) : pystr := u (if n then " NOT IN " else " IN ").
Definition between_text (n : bool) : pystr := u (if n then " NOT BETWEEN " else " BETWEEN ").
Definition is_text (n : bool) : pystr := u (if n then " IS NOT NULL" else " IS NULL").
Definition not_toks (n : bool) : list token := if n then [TWord (u "NOT")] else [].

Fixpoint jtoks (l : list (list token)) : list token :=
  match l with [] => [] | [x] => x | x :: r => x ++ TSym COMMA :: jtoks r end.
Fixpoint dtoks (l : list token) : list token :=
  match l with [] => [] | [x] => [x] | x :: r => x :: TSym PERIOD :: dtoks r end.

Section Show.
Variable alnum : N -> bool.
Variable fstr : Q -> pystr.
Variable ansi : bool.

Fixpoint show (t : tree) (c : Z) : pystr :=
  paren_if (bare c t)
  match t with
  | ECol l => join [DOT] (map (esc alnum ansi) l)
  | EStar => u "*"
  | EStr s => quote_str s
  | EInt z => str_int z
  | ENull => u "NULL"
  | ENeg t => u "-" ++ show t max_prec
  | EBnot t => u "~" ++ show t max_prec
  | ENot t => u "NOT" ++ paren (show t max_prec)
  | EBin o a b => show a (rank_op o + 1) ++ op_text o ++ show b (rank_op o)
  | EIn n m l => show m 32 ++ in_text n ++ paren (join (u ", ") (map (fun t => show t max_prec) l))
  | EBetween n a b d => show a 32 ++ between_text n ++ show b 32 ++ u " AND " ++ show d 32
  | EIs n t => show t 32 ++ is_text n
  | ECall f l => f ++ paren (join (u ", ") (map (fun t => show t max_prec) l))
  end.

Definition wrap (b : bool) (ts : list token) : list token :=
  if b then ts else TSym LP :: ts ++ [TSym RP].
Fixpoint toks (t : tree) (c : Z) : list token :=
  wrap (bare c t)
  match t with
  | ECol l => dtoks (map (part_tok alnum) l)
  | EStar => [TSym (u "*")]
  | EStr s => [TStr s]
  | EInt z => [TNum (str_int z)]
  | ENull => [TWord (u "NULL")]
  | ENeg t => TSym (u "-") :: toks t max_prec
  | EBnot t => TSym (u "~") :: toks t max_prec
  | ENot t => TWord (u "NOT") :: wrap false (toks t max_prec)
  | EBin o a b => toks a (rank_op o + 1) ++ op_toks o ++ toks b (rank_op o)
  | EIn n m l => toks m 32 ++ not_toks n ++ TWord (u "IN") :: wrap false (jtoks (map (fun t => toks t max_prec) l))
  | EBetween n a b d => toks a 32 ++ not_toks n ++ TWord (u "BETWEEN") :: toks b 32 ++ TWord (u "AND") :: toks d 32
  | EIs n t => toks t 32 ++ TWord (u "IS") :: not_toks n ++ [TWord (u "NULL")]
  | ECall f l => TWord f :: wrap false (jtoks (map (fun t => toks t max_prec) l))
  end.

(** ** What the writer prints for an expression *)
Lemma bin_key k o : find (fun p => seqb (fst p) k) binops = Some (k, o) -> k = op_key o.
Proof.
  intros F. apply find_some in F as [I _]. unfold binops in I. cbn [In] in I.
  repeat (destruct I as [I|I]; [apply pair_equal_spec in I as [<- <-]; reflexivity|]). destruct I.
Qed.
Lemma find_bin k k' o : find (fun p => seqb (fst p) k) binops = Some (k', o) -> k = op_key o.
Proof.
  intros F. pose proof F as G. apply find_some in F as [_ E]. cbn [fst] in E. apply seqb_eq in E. subst k'.
  now apply bin_key.
Qed.

Lemma rank_prec o : prec_of (op_key o) = rank_op o.
Proof. destruct o; reflexivity. Qed.

Lemma method_op disp o : method fstr disp (op_key o) = Some (infix disp (op_key o) (op_text o)).
Proof. destruct o; reflexivity. Qed.

Lemma step_op disp o v c : dispatch_step alnum fstr ansi disp (JDict [(op_key o, v)]) c = fmt_op fstr disp [(op_key o, v)] c.
Proof. destruct o; reflexivity. Qed.

Lemma int_show z c : show (int_of z) c = str_int z.
Proof.
  unfold int_of. destruct (Z.ltb_spec z 0).
  - cbn [show bare rank paren_if]. destruct z; try lia. reflexivity.
  - reflexivity.
Qed.
Lemma lit_show j t c : lit_of j = Some t -> literal fstr j = Ok (show t c).
Proof.
  destruct j; cbn [lit_of]; intros [= <-]; cbn [literal str_json].
  - now rewrite int_show.
  - reflexivity.
Qed.
Lemma lit_level j t : lit_of j = Some t -> rank t = None.
Proof. destruct j; cbn [lit_of]; intros [= <-]; [|reflexivity]. unfold int_of. now destruct (_ <? _). Qed.

Lemma depth_in x l : In x l -> (jdepth x < jdepth (JList l))%nat.
Proof.
  intros I. cbn [jdepth]. enough (jdepth x <= fold_right Nat.max 0 (map jdepth l))%nat by lia.
  induction l as [|y l IH]; [destruct I|]. cbn [map fold_right]. destruct I as [->|I]; [lia|]. specialize (IH I). lia.
Qed.
Lemma depth_one k v : jdepth (JDict [(k, v)]) = S (jdepth v).
Proof. cbn [jdepth map fold_right snd]. now rewrite Nat.max_0_r. Qed.

Lemma col_show s t c : col_of s = Some t -> escape alnum ansi s = Ok (show t c).
Proof.
  unfold col_of. destruct (seqb_spec s (u "*")) as [->|NS].
  - intros [= <-]. reflexivity.
  - unfold escape. destruct (names_of (split_field s)) as [[|x l]|] eqn:E; intros [= <-].
    enough (G : forall p l, names_of p = Some l ->
              mapM (fun st => match st with Name f => Ok (esc alnum ansi f) | Up => Err TypeError end) p = Ok (map (esc alnum ansi) l)).
    { rewrite (G _ _ E). reflexivity. }
    clear. unfold names_of. induction p as [|[|f] p IH]; cbn [mapO mapM]; intros l H.
    + now injection H as <-.
    + discriminate.
    + destruct (mapO _ p) as [ys|]; [|discriminate]. injection H as <-. cbn [bind]. rewrite (IH _ eq_refl). reflexivity.
Qed.

Lemma mapO_In {A B} (f : A -> option B) : forall l ys, mapO f l = Some ys -> forall x, In x l -> exists y, f x = Some y.
Proof.
  induction l as [|a l IH]; intros ys H x I; [destruct I|]. cbn [mapO] in H.
  destruct (f a) as [y|] eqn:E; [|discriminate]. destruct (mapO f l) as [zs|] eqn:F; [|discriminate].
  destruct I as [<-|I]; [now exists y|]. now apply (IH zs).
Qed.
Lemma mapO_F2 {A B} (f : A -> option B) : forall l ys, mapO f l = Some ys -> Forall2 (fun x y => f x = Some y) l ys.
Proof.
  induction l as [|a l IH]; intros ys H; cbn [mapO] in H.
  - injection H as <-. constructor.
  - destruct (f a) as [y|] eqn:E; [|discriminate]. destruct (mapO f l) as [zs|] eqn:F; [|discriminate].
    injection H as <-. constructor; [exact E|]. now apply IH.
Qed.
Lemma mapO_mapM {A B C} (f : A -> option B) (g : A -> res C) (h : B -> C) : forall l ys, mapO f l = Some ys ->
  (forall x y, In x l -> f x = Some y -> g x = Ok (h y)) -> mapM g l = Ok (map h ys).
Proof.
  induction l as [|a l IH]; intros ys H G; cbn [mapO] in H.
  - now injection H as <-.
  - destruct (f a) as [y|] eqn:E; [|discriminate]. destruct (mapO f l) as [zs|] eqn:F; [|discriminate].
    injection H as <-. cbn [mapM]. rewrite (G a y (or_introl eq_refl) E). cbn [bind].
    rewrite (IH zs eq_refl); [reflexivity|]. intros x y' I. apply G. now right.
Qed.

Lemma show_bin o a b c : show (EBin o a b) c = paren_if (rank_op o <=? c) (show a (rank_op o + 1) ++ op_text o ++ show b (rank_op o)).
Proof. reflexivity. Qed.

Lemma show_fold o : forall r a, show (fold_left (EBin o) r a) (rank_op o + 1) =
  join (op_text o) (show a (rank_op o + 1) :: map (fun b => show b (rank_op o)) r).
Proof.
  induction r as [|b r IH] using rev_ind; intros a; [reflexivity|].
  rewrite fold_left_app. cbn [fold_left]. rewrite show_bin. replace (rank_op o <=? rank_op o + 1) with true by lia.
  cbn [paren_if]. rewrite IH, map_app. cbn [map].
  clear. generalize (show a (rank_op o + 1)), (map (fun b => show b (rank_op o)) r), (show b (rank_op o)).
  intros x l y. revert x. induction l as [|z l IH]; intros x; [reflexivity|].
  change (join (op_text o) (x :: (z :: l) ++ [y])) with (x ++ op_text o ++ join (op_text o) ((z :: l) ++ [y])).
  cbn [app]. rewrite <- IH. change (join (op_text o) (x :: z :: l)) with (x ++ op_text o ++ join (op_text o) (z :: l)).
  now rewrite <- !app_assoc.
Qed.
Lemma show_fold_c o b r a c : show (fold_left (EBin o) (b :: r) a) c =
  paren_if (rank_op o <=? c) (join (op_text o) (show a (rank_op o + 1) :: map (fun b => show b (rank_op o)) (b :: r))).
Proof.
  rewrite <- show_fold. assert (E : exists x y, fold_left (EBin o) (b :: r) a = EBin o x y).
  { destruct (@exists_last _ (b :: r)) as (l & x & ->); [discriminate|]. rewrite fold_left_app. eexists _, _. reflexivity. }
  destruct E as (x & y & ->). rewrite (show_bin o x y (rank_op o + 1)).
  replace (rank_op o <=? rank_op o + 1) with true by lia. reflexivity.
Qed.

Lemma fmt_op_op disp o v c : fmt_op fstr disp [(op_key o, v)] c =
  do s <- infix disp (op_key o) (op_text o) v; Ok (paren_if (rank_op o <=? c) s).
Proof. unfold fmt_op. now rewrite method_op, rank_prec. Qed.

Lemma plain_key k v disp c : smem k (unordered_clauses ++ ordered_clauses ++ map u ["drop"; "value"; "join"; "insert"; "null"; "trim"; "extract"]%string) = false ->
  dispatch_step alnum fstr ansi disp (JDict [(k, v)]) c = fmt_op fstr disp [(k, v)] c.
Proof.
  intros H.
  assert (G : forall x, In x (unordered_clauses ++ ordered_clauses ++ map u ["drop"; "value"; "join"; "insert"; "null"; "trim"; "extract"]%string) ->
            dmem [(k, v)] x = false).
  { intros x I. unfold dmem. cbn [dget]. destruct (seqb_spec x k) as [->|]; [|reflexivity].
    apply smem_In in I. congruence. }
  assert (E : forall l, (forall x, In x l -> In x (unordered_clauses ++ ordered_clauses ++ map u ["drop"; "value"; "join"; "insert"; "null"; "trim"; "extract"]%string)) ->
            existsb (fun x => dmem [(k, v)] x) l = false).
  { intros l Hl. destruct (existsb _ l) eqn:X; [|reflexivity]. apply existsb_exists in X as (x & I & X). rewrite (G x (Hl x I)) in X. discriminate. }
  unfold dispatch_step. rewrite (E ordered_clauses), (E unordered_clauses).
  2,3: intros x I; rewrite !in_app_iff; tauto.
  rewrite !G; [reflexivity|..]; apply smem_In; reflexivity.
Qed.

Lemma show_ok : forall n j t c, (jdepth j < n)%nat -> -4 <= c <= max_prec -> tree_of j = Some t -> dispatch alnum fstr ansi n j c = Ok (show t c).
Proof.
  induction n as [n0 IH0] using lt_wf_ind. intros j t c Hn Hc Ht. destruct n0 as [|n]; [lia|]. cbn [dispatch].
  assert (IH : forall m, (m <= n)%nat -> forall j t c, (jdepth j < m)%nat -> -4 <= c <= max_prec -> tree_of j = Some t -> dispatch alnum fstr ansi m j c = Ok (show t c)).
  { intros m Hm. apply IH0. lia. }
  clear IH0.
  destruct j as [| |z| |s|l|d]; try discriminate Ht.
  - injection Ht as <-. reflexivity.
  - injection Ht as <-. cbn [dispatch_step str_json]. now rewrite int_show.
  - cbn [tree_of] in Ht. now apply col_show.
  - destruct d as [|[k v] [|? ?]]; try discriminate Ht. rewrite depth_one in Hn.
    cbn [tree_of] in Ht.
    destruct (find (fun p => seqb (fst p) k) binops) as [[k' o]|] eqn:F.
    + apply find_bin in F. subst k. rewrite step_op, fmt_op_op. unfold infix. rewrite rank_prec.
      assert (R : -4 <= rank_op o /\ rank_op o + 1 <= max_prec) by (destruct o; cbv; split; congruence).
      destruct v as [| | | | |l|[|[x w] [|? ?]]]; try discriminate Ht.
      * destruct (mapO tree_of l) as [ts|] eqn:M; [|discriminate].
        destruct ts as [|a [|b r]]; try discriminate. injection Ht as <-.
        cbn [listwrap]. change (fold_left (EBin o) r (EBin o a b)) with (fold_left (EBin o) (b :: r) a). rewrite show_fold_c.
        destruct l as [|j1 l]; [discriminate|]. cbn [mapO] in M.
        destruct (tree_of j1) as [y|] eqn:T1; [|discriminate]. destruct (mapO tree_of l) as [ys|] eqn:M'; [|discriminate].
        injection M as -> ->. rewrite (IH n (Nat.le_refl _) j1 a); [|pose proof (depth_in j1 (j1 :: l) (or_introl eq_refl)); lia|lia|exact T1].
        cbn [bind]. rewrite (mapO_mapM tree_of _ (fun b => show b (rank_op o)) l (b :: r) M'); [reflexivity|].
        intros x y I T. apply (IH n (Nat.le_refl _)); [pose proof (depth_in x (j1 :: l) (or_intror I)); lia|lia|exact T].
      * destruct (col_of x) as [a|] eqn:C; [|discriminate]. destruct (lit_of w) as [b|] eqn:L; [|discriminate].
        injection Ht as <-. rewrite depth_one in Hn. destruct n as [|n]; [lia|].
        cbn [dispatch mapM].
        change (dispatch_step alnum fstr ansi (dispatch alnum fstr ansi n) (JStr x) (rank_op o + 1)) with (escape alnum ansi x).
        rewrite (col_show _ _ (rank_op o + 1) C). cbn [bind].
        rewrite plain_key by reflexivity.
        change (fmt_op fstr (dispatch alnum fstr ansi n) [(u "literal", w)] (rank_op o)) with
          (do s <- literal fstr w; Ok (paren_if (-4 <=? rank_op o) s)).
        rewrite (lit_show _ _ (rank_op o) L). cbn [bind]. replace (-4 <=? rank_op o) with true by lia.
        cbn [paren_if join]. rewrite show_bin. reflexivity.
    + unfold keyed in Ht.
      destruct (seqb_spec (u "null") k) as [<-|_]. { injection Ht as <-. reflexivity. }
      destruct (seqb_spec (u "literal") k) as [<-|_].
      { rewrite plain_key by reflexivity.
        change (fmt_op fstr (dispatch alnum fstr ansi n) [(u "literal", v)] c) with
          (do s <- literal fstr v; Ok (paren_if (-4 <=? c) s)).
        rewrite (lit_show _ _ c Ht). cbn [bind]. now replace (-4 <=? c) with true by lia. }
      assert (IN : forall nn : bool, k = u (if nn then "nin" else "in") ->
        match v with
        | JList [m; s] =>
          match tree_of m,
                match s with
                | JList l => if no_literal l then mapO tree_of l else None
                | JDict [(k', w)] =>
                  if seqb (u "literal") k' then
                    match w with JList l => mapO lit_of l | _ => mapO lit_of [w] end
                  else None
                | _ => None
                end with
          | Some a, Some l => Some (EIn nn a l)
          | _, _ => None
          end
        | _ => None
        end = Some t ->
        dispatch_step alnum fstr ansi (dispatch alnum fstr ansi n) (JDict [(k, v)]) c = Ok (show t c)).
      { intros nn -> H. rewrite plain_key by (destruct nn; reflexivity).
        assert (E : fmt_op fstr (dispatch alnum fstr ansi n) [(u (if nn then "nin" else "in"), v)] c =
          do s <- fmt_in (dispatch alnum fstr ansi n) (in_text nn) v; Ok (paren_if (32 <=? c) s)) by (destruct nn; reflexivity).
        rewrite E. clear E. destruct v as [| | | | |[|m [|s [|? ?]]]|]; try discriminate H.
        destruct (tree_of m) as [a|] eqn:T; [|discriminate].
        pose proof (depth_in m [m; s] (or_introl eq_refl)) as D1.
        pose proof (depth_in s [m; s] (or_intror (or_introl eq_refl))) as D2.
        unfold fmt_in. cbn [unpack2 bind].
        assert (G : forall l set', match s with
                | JList l => if no_literal l then mapO tree_of l else None
                | JDict [(k', w)] =>
                  if seqb (u "literal") k' then
                    match w with JList l => mapO lit_of l | _ => mapO lit_of [w] end
                  else None
                | _ => None
                end = Some l ->
                (do b <- contains s (u "literal");
                 if b then do l <- getitem s (u "literal"); Ok (JDict [(u "literal", JList (listwrap l))]) else Ok s) = Ok set' ->
                dispatch alnum fstr ansi n set' 32 = Ok (paren (join (u ", ") (map (fun t => show t max_prec) l)))).
        { intros l set' Hl Hs. destruct s as [| | | | |ls|[|[k' w] [|? ?]]]; try discriminate Hl.
          - destruct (no_literal ls) eqn:NL; [|discriminate]. cbn [contains bind] in Hs.
            unfold no_literal in NL. apply negb_true_iff in NL. rewrite NL in Hs. injection Hs as <-.
            destruct n as [|n]; [lia|]. cbn [dispatch dispatch_step]. unfold sql_list, disp_list.
            change (prec_of (u "list")) with 72. change (prec_of (u "from")) with 120. change (120 <=? 72) with false.
            rewrite (mapO_mapM tree_of _ (fun t => show t max_prec) ls l Hl); [reflexivity|].
            intros x y I Tx. apply (IH n); [lia| |cbv; split; congruence|exact Tx]. pose proof (depth_in x ls I). lia.
          - destruct (seqb_spec (u "literal") k') as [<-|]; [|discriminate].
            change (Ok (JDict [(u "literal", JList (listwrap w))]) = Ok set') in Hs.
            assert (Es : set' = JDict [(u "literal", JList (listwrap w))]) by congruence. subst set'.
            destruct n as [|n]; [lia|]. cbn [dispatch]. rewrite plain_key by reflexivity.
            change (fmt_op fstr (dispatch alnum fstr ansi n) [(u "literal", JList (listwrap w))] 32) with
              (do s <- literal fstr (JList (listwrap w)); Ok s).
            assert (M : mapO lit_of (listwrap w) = Some l) by (destruct w; try exact Hl; discriminate Hl).
            change (literal fstr (JList (listwrap w))) with (do ps <- mapM (literal fstr) (listwrap w); Ok (paren (join (u ", ") ps))).
            rewrite (mapO_mapM lit_of (literal fstr) (fun t => show t max_prec) _ l M); [reflexivity|].
            intros x y I Tx. now apply lit_show. }
        destruct (match s with JList l => _ | _ => _ end) as [l|] eqn:L; [|discriminate]. injection H as <-.
        assert (X : exists set', (do b <- contains s (u "literal");
                 if b then do l <- getitem s (u "literal"); Ok (JDict [(u "literal", JList (listwrap l))]) else Ok s) = Ok set').
        { destruct s as [| | | | |ls|[|[k' w] [|? ?]]]; try discriminate L.
          - destruct (no_literal ls) eqn:NL; [|discriminate]. cbn [contains bind].
            unfold no_literal in NL. apply negb_true_iff in NL. rewrite NL. now eexists.
          - destruct (seqb_spec (u "literal") k') as [<-|]; [|discriminate]. cbn. now eexists. }
        destruct X as [set' X]. pose proof (G l set' eq_refl X) as G'.
        assert (X' : (do c <- contains s (u "literal");
              do set' <- (if c then do l <- getitem s (u "literal"); Ok (JDict [(u "literal", JList (listwrap l))]) else Ok s);
              do m <- dispatch alnum fstr ansi n m (prec_of (u "in"));
              do s <- dispatch alnum fstr ansi n set' (prec_of (u "in"));
              Ok (m ++ in_text nn ++ s)) = do m <- dispatch alnum fstr ansi n m 32; do s <- dispatch alnum fstr ansi n set' 32; Ok (m ++ in_text nn ++ s)).
        { destruct (contains s (u "literal")) as [b|]; [|discriminate X]. cbn [bind] in X |- *. rewrite X. reflexivity. }
        rewrite X'. rewrite (IH n (Nat.le_refl _) m a 32); [|lia|cbv; split; congruence|exact T]. cbn [bind]. rewrite G'. reflexivity. }
      destruct (seqb_spec (u "in") k) as [<-|_]. { exact (IN false eq_refl Ht). }
      cbn [orb] in Ht.
      destruct (seqb_spec (u "nin") k) as [<-|_]. { exact (IN true eq_refl Ht). }
      clear IN.
      assert (BT : forall nn : bool, k = u (if nn then "not_between" else "between") ->
        match v with
        | JList l => match mapO tree_of l with Some [a; b; c] => Some (EBetween nn a b c) | _ => None end
        | _ => None
        end = Some t ->
        dispatch_step alnum fstr ansi (dispatch alnum fstr ansi n) (JDict [(k, v)]) c = Ok (show t c)).
      { intros nn -> H. rewrite plain_key by (destruct nn; reflexivity).
        assert (E : fmt_op fstr (dispatch alnum fstr ansi n) [(u (if nn then "not_between" else "between"), v)] c =
          do s <- fmt_between (dispatch alnum fstr ansi n) (between_text nn) v; Ok (paren_if (32 <=? c) s)) by (destruct nn; reflexivity).
        rewrite E. clear E. destruct v as [| | | | |l|]; try discriminate H.
        destruct (mapO tree_of l) as [[|a [|b [|d [|? ?]]]]|] eqn:M; try discriminate H. injection H as <-.
        apply mapO_F2 in M. inversion M as [|x ? l1 ? T1 M1]; subst. inversion M1 as [|y ? l2 ? T2 M2]; subst.
        inversion M2 as [|z ? l3 ? T3 M3]; subst. inversion M3; subst.
        pose proof (depth_in x [x; y; z] (or_introl eq_refl)) as D1.
        pose proof (depth_in y [x; y; z] (or_intror (or_introl eq_refl))) as D2.
        pose proof (depth_in z [x; y; z] (or_intror (or_intror (or_introl eq_refl)))) as D3.
        unfold fmt_between. cbn [index nth_error bind]. change (prec_of (u "between")) with 32.
        rewrite (IH n (Nat.le_refl _) x a 32), (IH n (Nat.le_refl _) y b 32), (IH n (Nat.le_refl _) z d 32); try assumption; try lia; try (cbv; split; congruence); try reflexivity. }
      destruct (seqb_spec (u "between") k) as [<-|_]. { exact (BT false eq_refl Ht). }
      cbn [orb] in Ht.
      destruct (seqb_spec (u "not_between") k) as [<-|_]. { exact (BT true eq_refl Ht). }
      clear BT.
      assert (ISN : forall nn : bool, k = u (if nn then "exists" else "missing") ->
        match tree_of v with Some t => Some (EIs nn t) | None => None end = Some t ->
        dispatch_step alnum fstr ansi (dispatch alnum fstr ansi n) (JDict [(k, v)]) c = Ok (show t c)).
      { intros nn -> H. rewrite plain_key by (destruct nn; reflexivity).
        assert (E : fmt_op fstr (dispatch alnum fstr ansi n) [(u (if nn then "exists" else "missing"), v)] c =
          do s <- (do s <- dispatch alnum fstr ansi n v 32; Ok (s ++ is_text nn)); Ok (paren_if (28 <=? c) s)) by (destruct nn; reflexivity).
        rewrite E. clear E. destruct (tree_of v) as [a|] eqn:T; [|discriminate]. injection H as <-.
        rewrite (IH n (Nat.le_refl _) v a 32); [reflexivity|lia|cbv; split; congruence|exact T]. }
      destruct (seqb_spec (u "missing") k) as [<-|_]. { exact (ISN false eq_refl Ht). }
      cbn [orb] in Ht.
      destruct (seqb_spec (u "exists") k) as [<-|_]. { exact (ISN true eq_refl Ht). }
      clear ISN.
      destruct (seqb_spec (u "binary_not") k) as [<-|_].
      { rewrite plain_key by reflexivity.
        change (fmt_op fstr (dispatch alnum fstr ansi n) [(u "binary_not", v)] c) with
          (do s <- (do s <- dispatch alnum fstr ansi n v max_prec; Ok (u "~" ++ s)); Ok (paren_if (16 <=? c) s)).
        destruct (tree_of v) as [a|] eqn:T; [|discriminate]. injection Ht as <-.
        rewrite (IH n (Nat.le_refl _) v a max_prec); [reflexivity|lia|cbv; split; congruence|exact T]. }
      destruct (seqb_spec (u "not") k) as [<-|_].
      { rewrite plain_key by reflexivity.
        assert (E : tree_of v = tree_of v /\ listwrap v = [v] /\ v <> JDict [] /\ exists a, tree_of v = Some a /\ t = ENot a).
        { split; [reflexivity|]. destruct v as [| | | | |l|[|? ?]]; try discriminate Ht.
          all: try (destruct (tree_of _) as [a|] eqn:T in Ht; [|discriminate Ht]; injection Ht as <-; repeat split; [discriminate|exists a; now split]). }
        destruct E as (_ & LW & ND & a & T & ->).
        assert (E : fmt_op fstr (dispatch alnum fstr ansi n) [(u "not", v)] c =
          do ps <- disp_list (dispatch alnum fstr ansi n) (listwrap v) max_prec; Ok (u "NOT" ++ paren ps)).
        { destruct v as [| | | | |l|[|? ?]]; try reflexivity. congruence. }
        rewrite E, LW. unfold disp_list. cbn [mapM].
        rewrite (IH n (Nat.le_refl _) v a max_prec); [reflexivity|lia|cbv; split; congruence|exact T]. }
      destruct (fun_name k) eqn:FN; [|discriminate].
      assert (SK : forall x, In x special_keys -> k <> x).
      { unfold fun_name in FN. apply andb_true_iff in FN as [FN _]. apply andb_true_iff in FN as [_ FN].
        apply negb_true_iff in FN. intros x I ->. apply smem_In in I. congruence. }
      assert (MK : forall disp, method fstr disp k = None).
      { intros disp. unfold method.
        assert (Q : forall x, In x special_keys -> seqb k x = false) by (intros x I; apply seqb_neq, SK, I).
        rewrite !Q by (apply smem_In; reflexivity).
        destruct (dget operator_table k) as [op|] eqn:D; [|reflexivity]. exfalso.
        apply dget_Some_key in D. apply (SK k); [|reflexivity].
        cbn [dkeys operator_table map fst In] in D. apply smem_In.
        repeat (destruct D as [<-|D]; [reflexivity|]). destruct D. }
      rewrite plain_key.
      2: { destruct (smem k _) eqn:X; [|reflexivity]. exfalso. apply smem_In in X. apply (SK k); [|reflexivity].
           unfold special_keys. apply in_app_iff in X as [X|X].
           { apply in_app_iff. right. apply in_app_iff. now left. }
           apply in_app_iff in X as [X|X].
           { apply in_app_iff. right. apply in_app_iff. right. apply in_app_iff. now left. }
           apply smem_In. cbn [map In] in X. repeat (destruct X as [<-|X]; [reflexivity|]). destruct X. }
      unfold fmt_op. rewrite MK.
      assert (AL : forall l ts, mapO tree_of l = Some ts -> (forall x, In x l -> (jdepth x < n)%nat) ->
        (do ps <- disp_list (dispatch alnum fstr ansi n) l max_prec; Ok (upper k ++ paren ps)) = Ok (show (ECall (upper k) ts) c)).
      { intros l ts M D. unfold disp_list. rewrite (mapO_mapM tree_of _ (fun t => show t max_prec) l ts M); [reflexivity|].
        intros x y I T. apply (IH n (Nat.le_refl _)); [now apply D|cbv; split; congruence|exact T]. }
      assert (ONE : match tree_of v with Some t => Some (ECall (upper k) [t]) | None => None end = Some t ->
        (do ps <- disp_list (dispatch alnum fstr ansi n) [v] max_prec; Ok (upper k ++ paren ps)) = Ok (show t c)).
      { destruct (tree_of v) as [a|] eqn:T; intros E; [injection E as <-|discriminate E]. apply AL.
        - cbn [mapO]. now rewrite T.
        - intros x [<-|[]]. lia. }
      destruct v as [| | | | |l|[|kv d]].
      * injection Ht as <-. apply (AL [] []); [reflexivity|intros x []].
      * exact (ONE Ht).
      * exact (ONE Ht).
      * exact (ONE Ht).
      * exact (ONE Ht).
      * destruct (mapO tree_of l) as [ts|] eqn:M; [|discriminate]. injection Ht as <-. apply (AL l ts M).
        intros x I. pose proof (depth_in x l I). lia.
      * injection Ht as <-. reflexivity.
      * exact (ONE Ht).
Qed.
End Show.

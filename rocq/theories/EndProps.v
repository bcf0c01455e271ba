(** C88: a condition from the tokens of the statement to the text that is sent. *)
From Coq Require Import String Ascii List Arith NArith ZArith QArith Bool Lia.
From Verif Require Import Base BaseProof CryptoModel CryptoSpec CryptoProof FuzzyModel JsonModel JsonProof DotsModel RewriteModel LikeSpec SqlSpec EncSpec RewriteSpec
  WhereProof RewriteProof SqlLex SqlRead FmtModel FmtSpec FmtProof FmtNameProof FmtProps ScrubModel OperModel OperSpec OperProof EndSpec EndParseProof EndTruthProof
  EndAssocProof EndMaskProof EndLexProof EndProof RewriteExample.
Import ListNotations.

(** A supported condition is read, rewritten and written as a text that the database reads as a condition with the same
    truth value in every row of the encrypted table as the original has in the row that it encrypts. *)
Theorem C88_condition_rows : forall E M t m float_text alnum fstr bs s,
  prim_ok (e_P E) -> dget M t = Some m -> wf_table is_keyword m -> ascii_ok alnum ->
  grouped float_text s -> simple_atoms s -> supported (e_alnum E) bs m (mean s) ->
  exists x j text tr,
    read_tokens float_text (tokens_of float_text s) = Ok (TVal x) /\
    where_rw E M (JStr t) SYM [] (json_of (scrub x)) = Ok j /\
    format_sql alnum fstr j = Ok text /\
    reads bs true mysql_lev 14 text tr /\
    forall pr er, enc_row E m pr er -> truth er tr = truth pr (mean s).
Proof. exact end_to_end. Qed.
Print Assumptions C88_condition_rows.

(** Refuted when double quotes delimit names (the ANSI mode): a comparison of an encrypted integer column with an integer
    is then an error in every row of a table whose columns have ordinary names. *)
Theorem C88_ansi_quotes_refuted : forall E M t m float_text alnum fstr bs c cm z,
  prim_ok (e_P E) -> dget M t = Some m -> wf_table is_keyword m -> ascii_ok alnum ->
  enc_col m c cm SYM -> c_type cm = u "int" -> (length (str_int z) <= 32)%nat -> (0 <= z)%Z ->
  let s := XBin OEq false (XAtom (PText c) (ECol [c])) (XAtom (PNum z) (int_of z)) in
  supported (e_alnum E) bs m (mean s) /\
  exists x j text tr,
    read_tokens float_text (tokens_of float_text s) = Ok (TVal x) /\
    where_rw E M (JStr t) SYM [] (json_of (scrub x)) = Ok j /\
    format_sql alnum fstr j = Ok text /\
    reads bs false mysql_lev 14 text tr /\
    forall er, (forall k, In k (dkeys er) -> valid_name k = true) -> truth er tr = Err DbError.
Proof.
  intros E M t m f alnum fstr bs c cm z HP HM WF HA EC TY L Z0 s.
  assert (S : supported (e_alnum E) bs m (mean s)) by now apply (sup_int _ _ _ c cm z).
  split; [exact S|]. pose proof (enc_name m WF c cm SYM EC) as N0. destruct (colname_facts c alnum HA N0) as (D1 & D2 & _ & NO & _).
  assert (TC : tree_of (JStr c) = Some (ECol [c])) by (cbn [tree_of]; apply col_of_name; [apply NO|exact D1|exact D2]).
  destruct EC as (DC & PC & n & DN). destruct (aes_encrypt_ok (e_P E) HP (c_key cm) (str_int z) (proj1 (str_int_text_ok z))) as [ct Hct].
  pose proof (phys_name m WF c cm SYM n DC PC DN) as NN. destruct (colname_facts n alnum HA NN) as (E1 & E2 & _ & NO' & _).
  destruct (int_comparand (e_P E) HP alnum _ _ _ HA Hct L) as (B64 & Q & _).
  assert (NX : forall x, (x = DOT \/ x = BS \/ x = 92 \/ x = 10 \/ x = 42)%N -> ~ In x ct) by (intros x X I; apply B64 in I; unfold b64_alphabet, DOT, BS in *; lia).
  assert (NST : ct <> u "*") by (intros ->; apply (NX 42%N); [auto 10|now left]).
  assert (KCT : valid_name ct = false).
  { assert (ISC : is_column (fun _ => false) ct = false).
    { apply (aes_short_quoted _ (e_P E) HP _ _ _ Hct). rewrite nbytes_ascii by apply str_int_ascii.
      pose proof (str_int_nonempty z). destruct (str_int z); [congruence|]. cbn [length] in *. lia. }
    unfold is_column in ISC. rewrite split_nochar in ISC by (destruct (has_char DOT ct) eqn:H; [apply DotsProof.has_char_In in H; exfalso; revert H; apply NX; auto|reflexivity]).
    cbn [forallb negb] in ISC. now rewrite !andb_true_r in ISC. }
  exists (group (call (u "eq") [PText c; PNum z])), (JDict [(u "eq", JList [JStr n; JStr ct])]).
  assert (T' : tree_of (JDict [(u "eq", JList [JStr n; JStr ct])]) = Some (EBin OEq (ECol [n]) (ECol [ct]))).
  { change (match mapO tree_of [JStr n; JStr ct] with Some (a :: b :: r) => Some (fold_left (EBin OEq) (b :: r) a) | _ => None end = Some (EBin OEq (ECol [n]) (ECol [ct]))).
    cbn [mapO tree_of]. rewrite (col_of_name n (proj1 NO') E1 E2), (col_of_name ct NST) by (apply NX; auto). reflexivity. }
  destruct (C57_conditions alnum fstr bs _ _ HA T') as (text & F & RD & _).
  { now apply C_cmp. }
  { split; (constructor; [|constructor]); [exact NO'|]. split; [exact NST|]. intros E'. destruct ct as [|x ct]; [discriminate E'|].
    assert (I : In (last (x :: ct) 0%N) (x :: ct)) by (apply last_In; discriminate). rewrite E' in I. revert I. apply NX. auto 10. }
  exists text, (EBin OEq (ECol [n]) (ECol [ct])). split; [reflexivity|]. split.
  - rewrite scrub_group by exact I. rewrite scrub_call by (cbn; lia).
    change (where_rw E M (JStr t) SYM [] (JDict [(u "eq", JList [JStr c; JInt z])]) = Ok (JDict [(u "eq", JList [JStr n; JStr ct])])).
    rewrite (eq_rw E M t m c cm _ _ _ n HM DC PC DN), int_rw_sym, Hct. reflexivity.
  - split; [exact F|]. split; [exact RD|]. intros er K. cbn [truth tval]. destruct (dget er n); [|reflexivity]. cbn [bind].
    destruct (dget er ct) as [v|] eqn:DV; [|reflexivity]. apply dget_Some_key in DV. apply K in DV. congruence.
Qed.
Print Assumptions C88_ansi_quotes_refuted.

(** [name = 'Bob Ray' AND (age > 30 OR NOT id IN (3, 4)) AND age = 35 AND name LIKE '%b R%'], for the table [emp] with the
    encrypted columns name and age, and the text that is sent. *)
Definition end_col (s : string) : sx := XAtom (PText (u s)) (ECol [u s]).
Definition end_int (z : Z) : sx := XAtom (PNum z) (int_of z).
Definition end_lit (s : string) : sx := XAtom (PDict [(u "literal", PText (u s))]) (EStr (u s)).
Definition end_cond : sx :=
  XBin OAnd false (XBin OAnd false (XBin OAnd false (XBin OEq false (end_col "name") (end_lit "Bob Ray"))
    (XPar (XBin OOr false (XBin OGt false (end_col "age") (end_int 30)) (XNot (XIn false (end_col "id") [(PNum 3, EInt 3); (PNum 4, EInt 4)])))))
    (XBin OEq false (end_col "age") (end_int 35)))
    (XBin OLike false (end_col "name") (end_lit "%b R%")).
Definition ex_text : res pystr :=
  do t <- read_tokens (fun _ => false) (tokens_of (fun _ => false) end_cond);
  match t with
  | TVal x => do j <- where_rw exE exM (JStr (u "emp")) SYM [] (json_of (scrub x)); format_sql ascii_alnum (fun _ => []) j
  | _ => Err Generic
  end.
Example C88_example :
  wf_table is_keyword emp /\ grouped (fun _ => false) end_cond /\ simple_atoms end_cond /\ supported ascii_alnum true emp (mean end_cond) /\
  ex_text = Ok (u ("b71 = 'AAAAAABCb2IgUmF5AAAAAA==' AND (e45 > 30 OR NOT(id IN (3, 4))) AND " ++
    "d33 = ""AAAAAAAzNQAAAAAAAAAAAA=="" AND c02 LIKE '%AAAAAABiIAAAAAAAAAAAAA==AAAAAAAgUgAAAAAAAAAAAA==%'")).
Proof.
  split; [|split; [|split; [|split]]].
  - constructor.
    + nodup.
    + nodup.
    + intros k [<-|[<-|[<-|[]]]]; split; reflexivity.
    + intros n [<-|[<-|[<-|[<-|[<-|[]]]]]]; split; reflexivity.
    + intros k c H. apply dget_In in H. destruct H as [[= <- <-]|[[= <- <-]|[[= <- <-]|[]]]]; nodup.
  - split; [|cbn; repeat split; eauto; first [lia|cbv; lia]].
    cbn -[tree_of u]. unfold expr_of. repeat split; try (cbn; lia); try discriminate; auto; repeat constructor.
    all: try (eexists; reflexivity); try (eexists _, _; reflexivity).
    all: cbn -[u]; intros op J; cbn in J; destruct J as [J|[J|[J|[J|[]]]]]; subst op; reflexivity.
  - cbn. auto 20.
  - assert (NA : enc_col emp (u "name") (col_enc "varchar" "k1" [(SYM, u "b71"); (FUZ, u "c02")]) SYM) by (split; [reflexivity|]; split; [reflexivity|]; eexists; reflexivity).
    assert (NF : enc_col emp (u "name") (col_enc "varchar" "k1" [(SYM, u "b71"); (FUZ, u "c02")]) FUZ) by (split; [reflexivity|]; split; [reflexivity|]; eexists; reflexivity).
    assert (AS : enc_col emp (u "age") (col_enc "int" "k2" [(SYM, u "d33"); (OPEC, u "e45")]) SYM) by (split; [reflexivity|]; split; [reflexivity|]; eexists; reflexivity).
    assert (AO : enc_col emp (u "age") (col_enc "int" "k2" [(SYM, u "d33"); (OPEC, u "e45")]) OPEC) by (split; [reflexivity|]; split; [reflexivity|]; eexists; reflexivity).
    cbn [mean end_cond end_col end_int end_lit map snd]. apply sup_and; [apply sup_and; [apply sup_and; [|apply sup_or]|]|].
    + eapply sup_text; [exact NA|reflexivity|]. split; [reflexivity|]. right. discriminate.
    + eapply sup_order; [cbn; tauto|exact AO|reflexivity|]. split; [discriminate|reflexivity].
    + apply sup_plain; [constructor; constructor; reflexivity|discriminate|discriminate| | |discriminate].
      * cbn [good_leaves fold_right]. repeat split. constructor; [split; discriminate|constructor].
      * intros l [<-|[]]. exists (u "id"). split; [reflexivity|]. eexists. split; reflexivity.
    + eapply sup_int; [exact AS|reflexivity|]. cbn. lia.
    + apply (sup_like _ _ _ _ _ [u ""; u "b R"; u ""] NF); [reflexivity|]. split; [discriminate|]. split; [|split; [|exact I]].
      * intros p [<-|[<-|[<-|[]]]]; [left; reflexivity| |left; reflexivity]. right. split; [cbn; repeat constructor|]. split; reflexivity.
      * intros p [<-|[<-|[<-|[]]]]; reflexivity.
  - vm_compute. reflexivity.
Qed.

(** C65: the type of a statement. *)
From Coq Require Import String Ascii List NArith ZArith Bool.
From Verif Require Import Base CryptoModel EncodeModel JsonModel RewriteModel MetaModel ExecModel.
From Verif Require Import ClassifyModel ClassifySpec ClassifyProof.
Import ListNotations.

(** Comments do not count: the first token that is none decides, compared without quotes and in
    upper case. *)
Theorem C65_first_keyword : forall uc cs f rest, comments cs -> word f rest -> t_text f <> u "(" ->
  ~ two_word (kw uc f) -> decides (kw uc f) (query_type uc (cs ++ f :: rest)).
Proof. exact first_keyword. Qed.
Print Assumptions C65_first_keyword.

(** CREATE and ALTER: together with the next token that is no comment. *)
Theorem C65_first_two_keywords : forall uc cs f cs2 g rest, comments cs -> comments cs2 ->
  t_comment f = false -> two_word (kw uc f) -> t_text f <> u "." -> t_text f <> u "(" -> word g rest ->
  decides (kw uc f ++ kw uc g) (query_type uc (cs ++ f :: cs2 ++ g :: rest)).
Proof. exact first_two_keywords. Qed.
Print Assumptions C65_first_two_keywords.

(** Left parentheses at the very start are passed over. *)
Theorem C65_parenthesised : forall uc m cs f rest, comments cs -> Forall not_paren cs -> word f rest -> not_paren f ->
  ~ two_word (kw uc f) -> decides (kw uc f) (query_type uc (repeat lpar (S m) ++ cs ++ f :: rest)).
Proof. exact parenthesised. Qed.
Print Assumptions C65_parenthesised.

(** The claim fails for a comment in front of a parenthesis: not the first keyword [f] but the token
    [g] that follows it decides. *)
Theorem C65_comment_then_parenthesis_refuted : forall uc c m f g rest, comments [c] ->
  t_comment f = false -> t_text f <> u "." -> not_paren f -> word g rest -> ~ two_word (kw uc g) ->
  decides (kw uc g) (query_type uc (c :: repeat lpar (S m) ++ f :: g :: rest)).
Proof. exact comment_then_paren. Qed.
Print Assumptions C65_comment_then_parenthesis_refuted.

(** Letter case plays no part, in any statement. *)
Theorem C65_case : forall uc l l', caseless uc -> Forall2 (same_tok uc) l l' -> query_type uc l = query_type uc l'.
Proof. intros uc l l' H. exact (query_type_case uc H l l'). Qed.
Print Assumptions C65_case.

(** Statements that raise: nothing but comments, CREATE or ALTER alone, a qualified name first. *)
Theorem C65_no_keyword : forall uc cs, comments cs -> query_type uc cs = Err ValueError.
Proof. exact only_comments. Qed.
Print Assumptions C65_no_keyword.
Theorem C65_lone_create : forall uc cs f cs2, comments cs -> comments cs2 ->
  t_comment f = false -> two_word (kw uc f) -> t_text f <> u "." -> t_text f <> u "(" ->
  query_type uc (cs ++ f :: cs2) = Err IndexError.
Proof. exact lone_keyword. Qed.
Print Assumptions C65_lone_create.
Theorem C65_name_first : forall uc f g rest, t_text f <> u "." -> t_text g <> u "." -> ~ starts_dotted rest ->
  query_type uc (f :: mkTok (u ".") false :: g :: rest) = Err IndexError.
Proof. exact dotted_start. Qed.
Print Assumptions C65_name_first.

(** A statement whose first keyword is not in the table, and REPLACE, which is in it, are rejected:
    the metadata stays, and the connection is not used. *)
Theorem C65_rejected : forall uc cs f rest E inj b o d r a, comments cs -> word f rest -> t_text f <> u "(" ->
  ~ two_word (kw uc f) -> (forall t, accepted (kw uc f) t -> t = QReplace) ->
  q_type r = query_type uc (cs ++ f :: rest) ->
  exists e, call E inj b o d r a = (d, Err e, []) /\ (e = ValueError \/ e = NotImplementedErr).
Proof.
  intros uc cs f rest E inj b o d r a Hc Hw Hp Ht Ha Hq.
  destruct (first_keyword uc cs f rest Hc Hw Hp Ht) as [D1 D2].
  unfold call. rewrite Hq. clear Hq.
  destruct (query_type uc (cs ++ f :: rest)) as [ty|e] eqn:Q.
  - assert (ty = QReplace) as ->.
    { destruct (dget supported (kw uc f)) as [t|] eqn:G.
      - apply BaseProof.dget_In in G. pose proof (D1 t G) as D. injection D as ->. apply Ha. exact G.
      - exfalso. assert (Err ValueError = Ok ty :> res qtype); [|discriminate].
        symmetry. apply D2. intros t H. exact (unsupported _ G t H). }
    exists NotImplementedErr. split; [reflexivity|right; reflexivity].
  - exists e. split; [reflexivity|]. left.
    destruct (dget supported (kw uc f)) as [t|] eqn:G.
    + apply BaseProof.dget_In in G. pose proof (D1 t G) as D. discriminate.
    + assert (X : Err e = Err ValueError :> res qtype); [|injection X; auto].
      apply D2. intros t H. exact (unsupported _ G t H).
Qed.
Print Assumptions C65_rejected.

Definition ex_t (s : string) : tok := mkTok (u s) false.
Definition ex_c : tok := mkTok (u "/* c */") true.

(** [/* c */ select a from t]; [create /* c */ Table t]; [((WITH x]; DROP of anything;
    [/* c */ (select a from t)] is rejected, [/* c */ (insert select] is taken for a SELECT. *)
Example C65_example :
  query_type ascii_up [ex_c; ex_t "select"; ex_t "a"; ex_t "from"; ex_t "t"] = Ok QSelect /\
  query_type ascii_up [ex_t "create"; ex_c; ex_t "Table"; ex_t "t"] = Ok QCreate /\
  query_type ascii_up [lpar; lpar; ex_c; ex_t "WITH"; ex_t "x"] = Ok QSelect /\
  query_type ascii_up [ex_t "drop"; ex_t "database"; ex_t "d"] = Ok QDrop /\
  query_type ascii_up [ex_t "`select`"] = Ok QSelect /\
  query_type ascii_up [ex_c; lpar; ex_t "select"; ex_t "a"; ex_t "from"; ex_t "t"; ex_t ")"] = Err ValueError /\
  query_type ascii_up [ex_c; lpar; ex_t "insert"; ex_t "select"] = Ok QSelect /\
  query_type ascii_up [ex_c; ex_c; lpar; ex_t "select"] = Err IndexError /\
  query_type ascii_up [ex_t "truncate"; ex_t "table"; ex_t "t"] = Err ValueError.
Proof. vm_compute. tauto. Qed.
Example C65_case_example :
  Forall2 (same_tok ascii_up) [ex_t "SELECT"; ex_t "A"; ex_t "."; ex_t "b"] [ex_t "select"; ex_t "a"; ex_t "."; ex_t "B"].
Proof. repeat (constructor; [split; [repeat (constructor; [vm_compute; reflexivity|]); constructor|reflexivity]|]). constructor. Qed.

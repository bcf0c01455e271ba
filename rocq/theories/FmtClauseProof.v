(** * Lemmas: the clauses the SQL writer emits *)
From Coq Require Import String Ascii List NArith ZArith QArith Bool Lia ZifyBool ZifyNat ZifyN Permutation.
From Verif Require Import Base BaseProof JsonModel JsonProof CreateModel DotsModel FmtModel FmtSpec.
Import ListNotations.
Open Scope Z_scope.

(** ** The order of the keys *)
Lemma dget_perm {V} (d d' : dict V) k : Permutation d d' -> NoDup (dkeys d) -> dget d k = dget d' k.
Proof.
  intros P N. assert (N' : NoDup (dkeys d')) by (eapply Permutation_NoDup; [apply Permutation_map, P|exact N]).
  destruct (dget d k) as [v|] eqn:E.
  - symmetry. apply dget_NoDup; [exact N'|]. apply dget_In in E. eapply Permutation_in; eassumption.
  - symmetry. apply dget_None. apply dget_None in E. intros X. apply E.
    eapply Permutation_in; [apply Permutation_sym, Permutation_map, P|exact X].
Qed.

Section Clause.
Variables (alnum : N -> bool) (fstr : Q -> pystr) (ansi : bool).
Variable disp : json -> Z -> res pystr.

Lemma clause_ext d d' k v : (forall x, dget d x = dget d' x) -> clause fstr disp k d v = clause fstr disp k d' v.
Proof.
  intros H. unfold clause.
  assert (E1 : fmt_select disp d v = fmt_select disp d' v).
  { unfold fmt_select. rewrite (H (u "top")). unfold dmem. now rewrite (H (u "distinct_on")). }
  assert (E2 : dgetE d (u "offset") = dgetE d' (u "offset")) by (unfold dgetE; now rewrite H).
  rewrite E1, E2. reflexivity.
Qed.
Lemma clauses_ext names d d' : (forall x, dget d x = dget d' x) -> clauses fstr disp names d = clauses fstr disp names d'.
Proof.
  intros H. unfold clauses. f_equal.
  apply mapM_ext_in. intros k _. rewrite <- (H k). destruct (dget d k) as [v|]; [|reflexivity]. now rewrite (clause_ext d d' k v H).
Qed.
Lemma existsb_dmem d d' (f : pystr -> bool -> bool) l : (forall x : pystr, dget (V := json) d x = dget d' x) ->
  existsb (fun k => f k (dmem d k)) l = existsb (fun k => f k (dmem d' k)) l.
Proof.
  intros H. induction l as [|k l IH]; [reflexivity|]. cbn [existsb]. rewrite IH. unfold dmem at 1 3. now rewrite H.
Qed.

Lemma statement_step d prec : statement d ->
  dispatch_step alnum fstr ansi disp (JDict d) prec =
  if existsb (fun k => dmem d k) ordered_clauses then ordered_query fstr disp d prec else unordered_query fstr disp d prec.
Proof.
  intros [(k & M & I) F].
  assert (Q : forall x, In x (map u ["drop"; "value"; "join"; "insert"; "distinct_on"]%string) -> dmem d x = false) by now apply Forall_forall.
  cbn [dispatch_step]. destruct d as [|p r]; [discriminate M|]. set (d := p :: r) in *.
  rewrite (Q (u "drop")) by (cbn; auto). rewrite (Q (u "value")) by (cbn; auto). rewrite (Q (u "join")) by (cbn; auto).
  rewrite (Q (u "insert")) by (cbn; auto).
  destruct (existsb _ ordered_clauses); [reflexivity|].
  assert (E : existsb (fun k => dmem d k) unordered_clauses = true); [|now rewrite E].
  apply existsb_exists. exists k. split; [|exact M].
  cbn [map In] in I. unfold unordered_clauses. cbn [map In]. intuition.
Qed.

Lemma statement_main d : statement d -> existsb (fun k => negb (seqb k (u "from")) && dmem d k) unordered_clauses = true.
Proof.
  intros [(k & M & I) _]. apply existsb_exists. exists k. rewrite M, andb_true_r. cbn [map In] in I. unfold unordered_clauses. cbn [map In].
  repeat (destruct I as [<-|I]; [split; [auto 15|reflexivity]|]). destruct I.
Qed.

Lemma statement_ext d d' : (forall x, dget d x = dget d' x) -> statement d -> statement d'.
Proof.
  intros H [(k & M & I) F]. assert (E : forall x, dmem d x = dmem d' x) by (intros x; unfold dmem; now rewrite H).
  split; [exists k; rewrite <- E; auto|]. eapply Forall_impl; [|exact F]. intros x X. cbn beta in X. now rewrite <- E.
Qed.

Lemma key_order d d' prec : statement d -> NoDup (dkeys d) -> Permutation d d' ->
  dispatch_step alnum fstr ansi disp (JDict d') prec = dispatch_step alnum fstr ansi disp (JDict d) prec.
Proof.
  intros S N P. assert (H : forall x, dget d x = dget d' x) by (intros x; now apply dget_perm).
  rewrite statement_step by now apply (statement_ext d d'). rewrite statement_step by exact S.
  rewrite (existsb_dmem d d' (fun _ b => b) ordered_clauses H).
  assert (U : forall p, unordered_query fstr disp d p = unordered_query fstr disp d' p).
  { intros p. unfold unordered_query. now rewrite (clauses_ext unordered_clauses d d' H). }
  rewrite U. destruct (existsb _ ordered_clauses); [|reflexivity].
  unfold ordered_query. rewrite (existsb_dmem d d' (fun k b => negb (seqb k (u "from")) && b) unordered_clauses H).
  rewrite (clauses_ext ordered_clauses d d' H), U. unfold dgetE. now rewrite (H (u "from")).
Qed.

(** ** The texts of the clauses *)
Lemma bind_ok {A B} (x : res A) (f : A -> res B) b : bind x f = Ok b -> exists a, x = Ok a /\ f a = Ok b.
Proof. destruct x as [a|e]; cbn; [|discriminate]. intros H. now exists a. Qed.

Lemma starts_app (w s : pystr) : exists rest, w ++ s = w ++ rest.
Proof. now exists s. Qed.

Definition kw_ok (k t : pystr) : Prop := exists w rest, In (k, w) clause_keywords /\ t = w ++ rest.

Lemma clause_starts k d v t : dmem d (u "distinct_on") = false -> clause fstr disp k d v = Ok t -> kw_ok k t.
Proof.
  intros ND H. unfold clause in H.
  assert (G : forall (k' : string) (w : string) rest, In (k', w)
    [("with", "WITH "); ("distinct_on", "SELECT DISTINCT ON ("); ("select_distinct", "SELECT DISTINCT "); ("select", "SELECT ");
   ("delete", "DELETE FROM "); ("update", "UPDATE "); ("set", "SET "); ("from", "FROM "); ("where", "WHERE ");
   ("groupby", "GROUP BY "); ("having", "HAVING "); ("orderby", "ORDER BY "); ("limit", "LIMIT "); ("offset", "OFFSET ");
   ("fetch", "FETCH ")]%string -> k = u k' -> t = u w ++ rest -> kw_ok k t).
  { intros k' w rest I -> ->. exists (u w), rest. split; [|reflexivity]. unfold clause_keywords.
    apply in_map_iff. exists (k', w). split; [reflexivity|exact I]. }
  destruct (seqb k (u "with")) eqn:K1; [apply seqb_eq in K1|].
  { unfold fmt_with in H. apply bind_ok in H as (x & _ & H). injection H as <-. eapply (G "with" "WITH ")%string; [cbn; auto 20|exact K1|reflexivity]. }
  destruct (seqb k (u "distinct_on")) eqn:K2; [apply seqb_eq in K2|].
  { apply bind_ok in H as (x & _ & H). injection H as <-. eapply (G "distinct_on" "SELECT DISTINCT ON (")%string; [cbn; auto 20|exact K2|reflexivity]. }
  destruct (seqb k (u "select_distinct")) eqn:K3; [apply seqb_eq in K3|].
  { apply bind_ok in H as (x & _ & H). injection H as <-. eapply (G "select_distinct" "SELECT DISTINCT ")%string; [cbn; auto 20|exact K3|reflexivity]. }
  destruct (seqb k (u "select")) eqn:K4; [apply seqb_eq in K4|].
  { unfold fmt_select in H. apply bind_ok in H as (x & _ & H). destruct (dget d (u "top")).
    - apply bind_ok in H as (y & _ & H). injection H as <-. apply (G "select"%string "SELECT "%string (u "TOP (" ++ y ++ u ") " ++ x)); [cbn; auto 20|exact K4|reflexivity].
    - rewrite ND in H. injection H as <-. eapply (G "select" "SELECT ")%string; [cbn; auto 20|exact K4|reflexivity]. }
  destruct (seqb k (u "delete")) eqn:K5; [apply seqb_eq in K5|].
  { apply bind_ok in H as (x & _ & H). injection H as <-. eapply (G "delete" "DELETE FROM ")%string; [cbn; auto 20|exact K5|reflexivity]. }
  destruct (seqb k (u "update")) eqn:K6; [apply seqb_eq in K6|].
  { apply bind_ok in H as (x & _ & H). injection H as <-. eapply (G "update" "UPDATE ")%string; [cbn; auto 20|exact K6|reflexivity]. }
  destruct (seqb k (u "set")) eqn:K7; [apply seqb_eq in K7|].
  { unfold fmt_set in H. destruct v; try discriminate H. apply bind_ok in H as (x & _ & H). injection H as <-.
    eapply (G "set" "SET ")%string; [cbn; auto 20|exact K7|reflexivity]. }
  destruct (seqb k (u "from")) eqn:K8; [apply seqb_eq in K8|].
  { assert (X : exists rest, t = u "FROM " ++ rest).
    { unfold fmt_from in H. destruct v; [| | | | | |destruct (existsb _ set_ops)];
        apply bind_ok in H as (x & _ & H); injection H as <-; eexists; reflexivity. }
    destruct X as [rest X]. eapply (G "from" "FROM ")%string; [cbn; auto 20|exact K8|exact X]. }
  destruct (seqb k (u "where")) eqn:K9; [apply seqb_eq in K9|].
  { apply bind_ok in H as (x & _ & H). injection H as <-. eapply (G "where" "WHERE ")%string; [cbn; auto 20|exact K9|reflexivity]. }
  destruct (seqb k (u "groupby")) eqn:K10; [apply seqb_eq in K10|].
  { apply bind_ok in H as (x & _ & H). injection H as <-. eapply (G "groupby" "GROUP BY ")%string; [cbn; auto 20|exact K10|reflexivity]. }
  destruct (seqb k (u "having")) eqn:K11; [apply seqb_eq in K11|].
  { apply bind_ok in H as (x & _ & H). injection H as <-. eapply (G "having" "HAVING ")%string; [cbn; auto 20|exact K11|reflexivity]. }
  destruct (seqb k (u "orderby")) eqn:K12; [apply seqb_eq in K12|].
  { unfold fmt_orderby in H. apply bind_ok in H as (x & _ & H). injection H as <-. eapply (G "orderby" "ORDER BY ")%string; [cbn; auto 20|exact K12|reflexivity]. }
  destruct (seqb k (u "limit")) eqn:K13; [apply seqb_eq in K13|].
  { apply bind_ok in H as (x & _ & H). injection H as <-. eapply (G "limit" "LIMIT ")%string; [cbn; auto 20|exact K13|reflexivity]. }
  destruct (seqb k (u "offset")) eqn:K14; [apply seqb_eq in K14|].
  { apply bind_ok in H as (x & _ & H). injection H as <-. eapply (G "offset" "OFFSET ")%string; [cbn; auto 20|exact K14|reflexivity]. }
  destruct (seqb k (u "fetch")) eqn:K15; [apply seqb_eq in K15|discriminate H].
  apply bind_ok in H as (o & _ & H). apply bind_ok in H as (x & _ & H). injection H as <-.
  eapply (G "fetch" "FETCH ")%string; [cbn; auto 20|exact K15|reflexivity].
Qed.

Lemma kw_nonempty k t : kw_ok k t -> t <> [].
Proof.
  intros (w & rest & I & ->). unfold clause_keywords in I. apply in_map_iff in I as ([k' w'] & E & I). cbn [fst snd] in E. injection E as _ <-.
  cbn [In] in I. repeat (destruct I as [E|I]; [injection E as _ <-; discriminate|]). destruct I.
Qed.

Lemma clauses_parts names d ps : dmem d (u "distinct_on") = false -> clauses fstr disp names d = Ok ps ->
  exists parts, ps = map snd parts /\ map fst parts = filter (fun k => dmem d k) names /\
    Forall (fun p => kw_ok (fst p) (snd p) /\ exists v, dget d (fst p) = Some v /\ clause fstr disp (fst p) d v = Ok (snd p)) parts.
Proof.
  intros ND H. unfold clauses in H. apply bind_ok in H as (l & H & E). injection E as <-.
  revert l H. induction names as [|k names IH]; intros l H.
  - cbn in H. injection H as <-. now exists [].
  - cbn [mapM] in H. apply bind_ok in H as (x & Hx & H). apply bind_ok in H as (l' & Hl & H). injection H as <-.
    destruct (IH l' Hl) as (parts & E1 & E2 & E3). cbn [concat filter]. unfold dmem at 1. destruct (dget d k) as [v|] eqn:D.
    + apply bind_ok in Hx as (t & Ht & Hx). injection Hx as <-. pose proof (clause_starts k d v t ND Ht) as KW.
      exists ((k, t) :: parts). cbn [app]. pose proof (kw_nonempty _ _ KW) as NE.
      split; [|split; [cbn [map fst]; now rewrite E2|]].
      * cbn [map snd filter]. destruct t; [congruence|]. now rewrite E1.
      * constructor; [|exact E3]. cbn [fst snd]. split; [exact KW|]. now exists v.
    + injection Hx as <-. exists parts. auto.
Qed.

Lemma join_app sep l l' : l <> [] -> join sep (l ++ l') = join sep (join sep l :: l').
Proof.
  intros N. induction l as [|x l IH]; [congruence|]. destruct l as [|y l].
  - reflexivity.
  - change ((x :: y :: l) ++ l') with (x :: (y :: l) ++ l'). change (join sep (x :: y :: l)) with (x ++ sep ++ join sep (y :: l)).
    specialize (IH ltac:(discriminate)). destruct l' as [|z l'].
    + rewrite app_nil_r in *. reflexivity.
    + change (join sep (x :: (y :: l) ++ z :: l')) with (x ++ sep ++ join sep ((y :: l) ++ z :: l')).
      rewrite IH. change (join sep ((x ++ sep ++ join sep (y :: l)) :: z :: l')) with ((x ++ sep ++ join sep (y :: l)) ++ sep ++ join sep (z :: l')).
      change (join sep (join sep (y :: l) :: z :: l')) with (join sep (y :: l) ++ sep ++ join sep (z :: l')).
      now rewrite !app_assoc.
Qed.

Lemma clause_order d s : statement d -> dispatch_step alnum fstr ansi disp (JDict d) max_prec = Ok s ->
  exists parts, s = join (u " ") (map snd parts) /\ map fst parts = filter (fun k => dmem d k) clause_names /\
    Forall (fun p => kw_ok (fst p) (snd p) /\ exists v, dget d (fst p) = Some v /\ clause fstr disp (fst p) d v = Ok (snd p)) parts.
Proof.
  intros S H. rewrite statement_step in H by exact S.
  assert (ND : dmem d (u "distinct_on") = false).
  { destruct S as [_ F]. rewrite Forall_forall in F. apply F. cbn. auto 10. }
  change clause_names with (unordered_clauses ++ ordered_clauses).
  assert (FO : existsb (fun k => dmem d k) ordered_clauses = false -> filter (fun k => dmem d k) ordered_clauses = []).
  { generalize ordered_clauses. induction l as [|k l IH]; [reflexivity|]. cbn [existsb filter]. destruct (dmem d k); [discriminate|exact IH]. }
  destruct (existsb _ ordered_clauses) eqn:O.
  - unfold ordered_query in H. rewrite statement_main in H by exact S.
    apply bind_ok in H as (s1 & H1 & H). apply bind_ok in H as (ps & H2 & H).
    change (prec_of (u "order") <=? max_prec) with true in H. cbn [paren_if] in H. injection H as <-.
    unfold unordered_query in H1. apply bind_ok in H1 as (ps1 & H1 & E). change (prec_of (u "from") <=? prec_of (u "order")) with true in E.
    cbn [paren_if] in E. injection E as <-.
    destruct (clauses_parts _ _ _ ND H1) as (p1 & -> & A2 & A3). destruct (clauses_parts _ _ _ ND H2) as (p2 & -> & B2 & B3).
    exists (p1 ++ p2). rewrite !map_app, filter_app, A2, B2. split; [|split; [reflexivity|now apply Forall_app]].
    rewrite join_app; [reflexivity|]. intros X. apply map_eq_nil in X. subst p1. change (@nil pystr = filter (fun k => dmem d k) unordered_clauses) in A2.
    pose proof (statement_main d S) as M. apply existsb_exists in M as (k & I & M). apply andb_true_iff in M as [_ M].
    assert (X : In k (filter (fun k => dmem d k) unordered_clauses)) by (apply filter_In; auto).
    rewrite <- A2 in X. destruct X.
  - unfold unordered_query in H. apply bind_ok in H as (ps & H1 & H). change (prec_of (u "from") <=? max_prec) with true in H.
    cbn [paren_if] in H. injection H as <-.
    destruct (clauses_parts _ _ _ ND H1) as (p1 & -> & A2 & A3). exists p1. rewrite filter_app, FO by reflexivity. rewrite app_nil_r. auto.
Qed.

(** ** What the clauses hold *)
Lemma mapM_forall2 {A B} (f : A -> res B) l ys : mapM f l = Ok ys -> Forall2 (fun x y => f x = Ok y) l ys.
Proof.
  revert ys. induction l as [|x l IH]; intros ys H; cbn [mapM] in H.
  - injection H as <-. constructor.
  - apply bind_ok in H as (y & Hy & H). apply bind_ok in H as (ys' & H' & H). injection H as <-. constructor; auto.
Qed.
Lemma list_content v t w : (do s <- disp_list disp (listwrap v) max_prec; Ok (w ++ s)) = Ok t ->
  exists xs, Forall2 (fun j x => disp j max_prec = Ok x) (as_list v) xs /\ t = w ++ join (u ", ") xs.
Proof.
  intros H. apply bind_ok in H as (s & Hs & H). injection H as <-. unfold disp_list in Hs. apply bind_ok in Hs as (xs & Hx & Hs). injection Hs as <-.
  exists xs. split; [|reflexivity]. apply mapM_forall2 in Hx. exact Hx.
Qed.

Lemma kw_unique k w w' : In (k, w) clause_keywords -> In (k, w') clause_keywords -> w = w'.
Proof.
  assert (N : NoDup (dkeys clause_keywords)).
  { repeat constructor; cbn; intros H; repeat (destruct H as [H|H]; [discriminate H|]); exact H. }
  intros A B. apply (dget_NoDup _ _ _ N) in A. apply (dget_NoDup _ _ _ N) in B. congruence.
Qed.

Lemma content_ok d k v t : dmem d (u "distinct_on") = false -> dget d k = Some v -> clause fstr disp k d v = Ok t ->
  clause_content (fun j => disp j max_prec) d k t.
Proof.
  intros ND D H. destruct (clause_starts k d v t ND H) as (w & rest & I & E).
  exists w, v. split; [exact I|]. split; [exact D|]. split; [|split; [|split; [|now exists rest]]].
  - intros K. cbn [map In] in K. destruct K as [<-|[<-|[]]].
    + change (bind (disp v max_prec) (fun s => Ok (u "WHERE " ++ s)) = Ok t) in H. apply bind_ok in H as (x & Hx & H). injection H as <-.
      exists x. split; [exact Hx|]. assert (W : u "WHERE " = w) by (apply (kw_unique (u "where")); [cbn; auto 20|exact I]). now rewrite <- W.
    + change (bind (disp v max_prec) (fun s => Ok (u "HAVING " ++ s)) = Ok t) in H. apply bind_ok in H as (x & Hx & H). injection H as <-.
      exists x. split; [exact Hx|]. assert (W : u "HAVING " = w) by (apply (kw_unique (u "having")); [cbn; auto 20|exact I]). now rewrite <- W.
  - intros K.
    assert (G : exists w', In (k, w') clause_keywords /\ (do s <- disp_list disp (listwrap v) max_prec; Ok (w' ++ s)) = Ok t).
    { destruct K as [K|[-> K]].
      - cbn [map In] in K. destruct K as [<-|[<-|[<-|[]]]].
        + exists (u "SELECT DISTINCT "). split; [cbn; auto 20|exact H].
        + exists (u "GROUP BY "). split; [cbn; auto 20|exact H].
        + exists (u "LIMIT "). split; [cbn; auto 20|exact H].
      - exists (u "SELECT "). split; [cbn; auto 20|]. change (fmt_select disp d v = Ok t) in H. unfold fmt_select in H. rewrite ND in H.
        unfold dmem in K. destruct (dget d (u "top")); [discriminate K|]. exact H. }
    destruct G as (w' & I' & G). replace w with w'; [now apply list_content|]. now apply (kw_unique k).
  - intros ->. change (fmt_set disp d v = Ok t) in H. unfold fmt_set in H. destruct v as [| | | | | |kvs]; try discriminate H.
    apply bind_ok in H as (xs & Hx & H). injection H as <-. exists kvs, xs. split; [reflexivity|]. split.
    + assert (W : u "SET " = w) by (apply (kw_unique (u "set")); [cbn; auto 20|exact I]). now rewrite <- W.
    + apply mapM_forall2 in Hx. clear - Hx. induction Hx as [|kv x l l' X _ IH]; [constructor|]. constructor; [|exact IH].
      apply bind_ok in X as (a & Ha & X). apply bind_ok in X as (b & Hb & X). injection X as <-. now exists a, b.
Qed.

Lemma clause_order_content d s : statement d -> dispatch_step alnum fstr ansi disp (JDict d) max_prec = Ok s ->
  exists parts, s = join (u " ") (map snd parts) /\ map fst parts = filter (fun k => dmem d k) clause_names /\
    Forall (fun p => clause_content (fun j => disp j max_prec) d (fst p) (snd p)) parts.
Proof.
  intros S H. destruct (clause_order d s S H) as (parts & E1 & E2 & F). exists parts. split; [exact E1|]. split; [exact E2|].
  eapply Forall_impl; [|exact F]. intros p (_ & v & D & C). eapply content_ok; [|exact D|exact C].
  destruct S as [_ G]. rewrite Forall_forall in G. apply G. cbn. auto 10.
Qed.
End Clause.

(** MySQL reads the tokens of a statement as the statement. *)
From Coq Require Import String Ascii List Arith NArith ZArith Bool Lia ZifyBool ZifyNat ZifyN.
From Verif Require Import Base BaseProof CryptoModel JsonModel DotsModel RewriteModel SqlSpec EncSpec StmtSpec SqlLex SqlRead FmtModel FmtSpec FmtLexProof FmtReadProof ScrubModel InfixModel InfixSpec OperModel OperSpec EndSpec EndAssocProof
  TextSpec LitModel LitSpec LitProof GramModel GramSpec DirectSpec DirectLexProof DirectReadProof.
Import ListNotations.

Lemma isw_kw w k w' : tk (K w) k -> is_w w' k = seqb (u w) (u w').
Proof. intros T. inversion T as [? t X| | | | | |]; subst. cbn [is_w]. now rewrite X. Qed.
Lemma isw_fun f k (w : string) : tk (LFun f) k -> k = TWord f.
Proof. intros T. now inversion T. Qed.
Lemma sym_kw w k s : tk (K w) k -> is_sym s k = false.
Proof. intros T. now inversion T. Qed.
Definition no_comma (rest : list token) : Prop := match rest with [] => True | c :: _ => is_sym COMMA c = false end.

Ltac cons_inv F k T F' := inversion F as [|? k ? ? T F']; subst; clear F.

Lemma idents_tk : forall l ks rest, l <> [] -> Forall2 tk (separated (map (fun c => [LName c]) l)) ks -> no_comma rest -> idents (ks ++ rest) = Some (l, rest).
Proof.
  induction l as [|c l IH]; intros ks rest NE F NC; [congruence|]. destruct l as [|c' l].
  - cbn [map separated] in F. cons_inv F k T F'. inversion F'; subst. destruct (name_tk c k T) as (_ & ID & _). cbn [app idents]. rewrite ID. destruct rest as [|x r]; [reflexivity|]. now rewrite NC.
  - change (separated (map (fun c => [LName c]) (c :: c' :: l))) with (LName c :: Y "," :: separated (map (fun c => [LName c]) (c' :: l))) in F.
    cons_inv F k T F1. cons_inv F1 q TC F2. destruct (name_tk c k T) as (_ & ID & _). destruct (sym_tok _ _ TC) as [-> _]. cbn [app idents]. rewrite ID.
    change (is_sym COMMA (TSym (u ","))) with true. cbv iota. rewrite (IH _ rest ltac:(discriminate) F2 NC). reflexivity.
Qed.
Lemma low_same f : map low_char f = map low f.
Proof. apply map_ext. intros c. reflexivity. Qed.
Lemma sym_name s v k : tk (LName v) k -> is_sym s k = false.
Proof. intros T. destruct (name_tk v k T) as (_ & _ & [-> | ->] & _); reflexivity. Qed.
Lemma items_tk i li ks f x rest : items_lex i li -> Forall2 tk li ks -> tk (K "from") f -> read_items (ks ++ f :: x :: rest) = Some (i, f :: x :: rest).
Proof.
  intros I F TF. destruct I as [|l NE _|g G|g mx c G].
  - cons_inv F k T F1. inversion F1; subst. destruct (sym_tok _ _ T) as [-> _]. cbn [app read_items]. destruct rest as [|y r]; reflexivity.
  - assert (NC : no_comma (f :: x :: rest)) by (apply (sym_kw "from"); exact TF). pose proof (idents_tk l ks _ NE F NC) as ID. destruct l as [|c [|c' l]]; [congruence| |].
    + cbn [map separated] in F. cons_inv F k T F1. inversion F1; subst. cbn [app] in *. cbn [read_items]. rewrite (sym_name _ c k T). rewrite (sym_kw "from" f _ TF). cbn [andb]. rewrite ID. destruct rest; reflexivity.
    + change (separated (map (fun c => [LName c]) (c :: c' :: l))) with (LName c :: Y "," :: separated (map (fun c => [LName c]) (c' :: l))) in F.
      cons_inv F k T F1. cons_inv F1 q TC F2. destruct (sym_tok _ _ TC) as [-> _]. cbn [app] in *.
      match goal with |- context[k :: TSym (u ",") :: ?z] => destruct z as [|z1 [|z2 z3]] eqn:Z end.
      * apply app_eq_nil in Z. destruct Z; discriminate.
      * cbn [read_items]. rewrite (sym_name _ c k T). now rewrite ID.
      * cbn [read_items]. rewrite (sym_name _ c k T). change (is_sym SqlRead.LP (TSym (u ","))) with false. cbn [andb]. now rewrite ID.
  - cons_inv F k T F1. cons_inv F1 k1 T1 F2. cons_inv F2 k2 T2 F3. cons_inv F3 k3 T3 F4. inversion F4; subst. rewrite (isw_fun g k "" T). destruct (sym_tok _ _ T1) as [-> _]. destruct (sym_tok _ _ T2) as [-> _]. destruct (sym_tok _ _ T3) as [-> _].
    cbn [app read_items is_sym is_w]. rewrite <- low_same, G. reflexivity.
  - cons_inv F k T F1. cons_inv F1 k1 T1 F2. cons_inv F2 k2 T2 F3. cons_inv F3 k3 T3 F4. inversion F4; subst. rewrite (isw_fun g k "" T). destruct (sym_tok _ _ T1) as [-> _]. destruct (name_tk c k2 T2) as (_ & ID & _). destruct (sym_tok _ _ T3) as [-> _].
    cbn [app read_items]. rewrite (sym_name _ c k2 T2), andb_false_r, ID. cbn [is_sym is_w]. rewrite <- low_same, G. destruct mx; reflexivity.
Qed.
Lemma constant_tk k ks rest : Forall2 tk (const_lex k) ks -> constant (ks ++ rest) = Some (k, rest).
Proof.
  intros F. destruct k as [z|s]; cbn [const_lex] in F.
  - destruct (Z.ltb_spec z 0).
    + cons_inv F k T F1. cons_inv F1 k1 T1 F2. inversion F2; subst. destruct (sym_tok _ _ T) as [-> _]. destruct (num_tok _ _ T1) as (t & -> & E). cbn [app constant].
      change (seqb (u "-") (u "-")) with true. cbv iota. rewrite E, Z.opp_involutive. reflexivity.
    + cons_inv F k T F1. inversion F1; subst. destruct (num_tok _ _ T) as (t & -> & E). cbn [app constant]. now rewrite E.
  - cons_inv F k T F1. inversion F1; subst. now rewrite (str_tok _ _ T).
Qed.
Lemma separated_cons (x y : list lexeme) l : separated (x :: y :: l) = x ++ Y "," :: separated (y :: l).
Proof. reflexivity. Qed.
Lemma constants_tk : forall vs ks rest n, vs <> [] -> Forall2 tk (separated (map const_lex vs)) ks -> no_comma rest -> (length vs <= n)%nat -> constants n (ks ++ rest) = Some (vs, rest).
Proof.
  induction vs as [|k vs IH]; intros ks rest n NE F NC L; [congruence|]. destruct n as [|n]; cbn [length] in L; [lia|]. destruct vs as [|k' vs].
  - cbn [map separated] in F. cbn [constants]. rewrite (constant_tk k ks rest F). destruct rest as [|x r]; [reflexivity|]. now rewrite NC.
  - cbn [map] in F. rewrite separated_cons in F. apply Forall2_app_inv_l in F. destruct F as (k1 & k2 & F1 & F2 & ->). cons_inv F2 q TC F3. destruct (sym_tok _ _ TC) as [-> _].
    rewrite <- app_assoc. cbn [constants]. rewrite (constant_tk k k1 _ F1). cbn [app]. change (is_sym COMMA (TSym (u ","))) with true. cbv iota. rewrite (IH _ rest n ltac:(discriminate) F3 NC); [reflexivity|]. cbn [length] in *. lia.
Qed.
Lemma assignments_tk : forall b ks rest n, b <> [] -> Forall2 tk (separated (map (fun p => LName (fst p) :: Y "=" :: const_lex (snd p)) b)) ks -> no_comma rest -> (length b <= n)%nat -> assignments n (ks ++ rest) = Some (b, rest).
Proof.
  induction b as [|[c k] b IH]; intros ks rest n NE F NC L; [congruence|]. destruct n as [|n]; cbn [length] in L; [lia|]. destruct b as [|x b].
  - cbn [map separated fst snd] in F. cons_inv F n0 T F1. cons_inv F1 e TE F2. destruct (name_tk c n0 T) as (_ & ID & _). destruct (sym_tok _ _ TE) as [-> _]. cbn [app assignments]. rewrite ID. change (is_sym (u "=") (TSym (u "="))) with true. cbv iota.
    rewrite (constant_tk k _ rest F2). destruct rest as [|x r]; [reflexivity|]. now rewrite NC.
  - cbn [map fst snd] in F. rewrite separated_cons in F. cbn [app] in F. cons_inv F n0 T F1. cons_inv F1 e TE F2. destruct (name_tk c n0 T) as (_ & ID & _). destruct (sym_tok _ _ TE) as [-> _].
    apply Forall2_app_inv_l in F2. destruct F2 as (k1 & k2 & F3 & F4 & ->). cons_inv F4 q TC F5. destruct (sym_tok _ _ TC) as [-> _]. cbn [app assignments]. rewrite ID. change (is_sym (u "=") (TSym (u "="))) with true. cbv iota.
    rewrite <- app_assoc. rewrite (constant_tk k k1 _ F3). cbn [app]. change (is_sym COMMA (TSym (u ","))) with true. cbv iota. rewrite (IH _ rest n ltac:(discriminate) F5 NC); [reflexivity|]. cbn [length] in *. lia.
Qed.

(** ** Clauses *)
Section Clauses.
Variable ft : pystr -> bool.
Definition where_fit (w : option sx) : Prop :=
  match w with None => True | Some s => grouped ft s /\ simple_atoms s /\ search (mean s) end.
Lemma where_tk w lw ks rest : where_lex w lw -> where_fit w -> Forall2 tk lw ks -> (forall l, stop mysql_lev l rest) -> match rest with [] => True | x :: _ => is_w "where" x = false end ->
  exists n, forall k, (n <= k)%nat -> read_where k (ks ++ rest) = Some (option_map mean w, rest).
Proof.
  intros WL WF F ST NW. destruct w as [s|]; cbn [where_lex where_fit] in *.
  - destruct WL as (l & CL & ->). destruct WF as ((SO & RE) & SA & SE). cons_inv F k T F1.
    destruct (search_mok ft s SA SO RE SE) as (MO & _ & _).
    destruct (cond_reads s l CL MO _ F1 14%nat rest (mean s, rest)) as [N0 HN].
    + pose proof (need_mlev s). pose proof (mlev_top s). lia.
    + apply ST.
    + apply loop_stop, ST.
    + exists N0. intros m Hm. cbn [app]. unfold read_where. rewrite (isw_kw "where" k "where" T). change (seqb (u "where") (u "where")) with true. cbv iota. now rewrite HN.
  - subst lw. inversion F; subst. exists O. intros k _. cbn [app option_map]. unfold read_where. destruct rest as [|x r]; [reflexivity|]. now rewrite NW.
Qed.
Lemma limit_tk lim ks : Forall2 tk (limit_lex lim) ks -> read_limit ks = Some (lim, []).
Proof.
  intros F. destruct lim as [[n [k|]]|]; cbn [limit_lex] in F.
  - cons_inv F a TA F1. cons_inv F1 b TB F2. cons_inv F2 c TC F3. cons_inv F3 d TD F4. inversion F4; subst. destruct (num_tok _ _ TB) as (t & -> & E). destruct (num_tok _ _ TD) as (t' & -> & E'). cbn [read_limit].
    rewrite (isw_kw "limit" a "limit" TA), (isw_kw "offset" c "offset" TC), E, E', !N2Z.id. reflexivity.
  - cons_inv F a TA F1. cons_inv F1 b TB F2. inversion F2; subst. destruct (num_tok _ _ TB) as (t & -> & E). cbn [read_limit]. rewrite (isw_kw "limit" a "limit" TA), E, !N2Z.id. reflexivity.
  - inversion F; subst. reflexivity.
Qed.
Lemma no_order lim kl : Forall2 tk (limit_lex lim) kl -> read_order kl = Some (None, kl).
Proof.
  intros F. destruct lim as [[n k]|]; cbn [limit_lex] in F; [|inversion F; subst; reflexivity]. cons_inv F a TA F1. destruct l' as [|b [|c r]]; try reflexivity. cbn [read_order]. now rewrite (isw_kw "limit" a "order" TA).
Qed.
Lemma order_tk o lim ks kl : Forall2 tk (order_lex o) ks -> Forall2 tk (limit_lex lim) kl -> read_order (ks ++ kl) = Some (o, kl).
Proof.
  intros F FL. destruct o as [[c d]|]; cbn [order_lex] in F; [|inversion F; subst; now apply (no_order lim)].
  cons_inv F a TA F1. cons_inv F1 b TB F2. cons_inv F2 x TX F3. destruct (name_tk c x TX) as (_ & ID & _). cbn [app read_order]. rewrite (isw_kw "order" a "order" TA), (isw_kw "by" b "by" TB), ID. change (seqb (u "order") (u "order") && seqb (u "by") (u "by")) with true. cbv iota.
  destruct d.
  - cons_inv F3 y TY F4. inversion F4; subst. cbn [app]. now rewrite (isw_kw "desc" y "desc" TY).
  - inversion F3; subst. cbn [app]. destruct lim as [[n k]|]; cbn [limit_lex] in FL; [|inversion FL; subst; reflexivity]. cons_inv FL y TY F4. now rewrite (isw_kw "limit" y "desc" TY), (isw_kw "limit" y "asc" TY).
Qed.
Lemma stop_nil lev l : stop lev l [].
Proof. split; exact Logic.I. Qed.
Lemma stop_kw lev l w k rest : tk (K w) k -> map low (u w) = u w -> SqlRead.kw_of (u w) = None -> stop lev l (k :: rest).
Proof. intros T E H. destruct (kw_tok w k T E) as (t & -> & _ & E'). split; [now split|]. cbn [peek]. now rewrite E', H. Qed.
Lemma tail_tk o lim ks kl : Forall2 tk (order_lex o) ks -> Forall2 tk (limit_lex lim) kl ->
  (forall l, stop mysql_lev l (ks ++ kl)) /\ match ks ++ kl with [] => True | x :: _ => is_w "where" x = false end.
Proof.
  intros F FL. destruct o as [[c d]|]; cbn [order_lex] in F.
  - cons_inv F a TA F1. cbn [app]. split; [intros l; now apply (stop_kw _ _ "order")|]. now rewrite (isw_kw "order" a "where" TA).
  - inversion F; subst. cbn [app]. destruct lim as [[n k]|]; cbn [limit_lex] in FL; [|inversion FL; subst; split; [intros l; apply stop_nil|exact Logic.I]].
    cons_inv FL a TA F1. split; [intros l; now apply (stop_kw _ _ "limit")|]. now rewrite (isw_kw "limit" a "where" TA).
Qed.
Definition cmd_fit (c : cmd sx) : Prop :=
  match c with
  | Select _ _ w _ _ | Delete _ w => where_fit w
  | Insert _ cs vs => cs <> [] /\ vs <> []
  | Update _ sets w => sets <> [] /\ where_fit w
  end.
Lemma cmd_reads c ls ks : cmd_lex c ls -> cmd_fit c -> ~ In (K "table") ls -> Forall2 tk ls ks -> exists n, forall k, (n <= k)%nat -> read_cmd k ks = Some (meaning c).
Proof.
  intros CL CF NT F. destruct CL as [i t w o lim li lw IL WL|tab t cs vs|t sets w lw WL|t w lw WL]; cbn [cmd_fit] in CF.
  - cons_inv F k T F1. apply Forall2_app_inv_l in F1. destruct F1 as (ki & k2 & FI & F2 & ->). cons_inv F2 f TF F3. cons_inv F3 x TX F4. apply Forall2_app_inv_l in F4. destruct F4 as (kw & k3 & FW & F5 & ->).
    apply Forall2_app_inv_l in F5. destruct F5 as (ko & kl & FO & FL & ->). destruct (tail_tk o lim ko kl FO FL) as [S1 S2]. destruct (where_tk w lw kw (ko ++ kl) WL CF FW S1 S2) as (n & Hn). exists n. intros m Hm.
    cbn [read_cmd]. rewrite (isw_kw "select" k "select" T). change (seqb (u "select") (u "select")) with true. cbv iota. rewrite (items_tk i li ki f x _ IL FI TF). rewrite (isw_kw "from" f "from" TF). change (seqb (u "from") (u "from")) with true. cbv iota.
    destruct (name_tk t x TX) as (_ & ID & _). rewrite ID, Hn by exact Hm. rewrite (order_tk o lim ko kl FO FL), (limit_tk lim kl FL). reflexivity.
  - destruct tab; [exfalso; apply NT; cbn [app]; right; right; now left|]. cbn [app] in F. cons_inv F k T F1. cons_inv F1 a TA F2. cons_inv F2 x TX F3. cons_inv F3 p TP F4. apply Forall2_app_inv_l in F4. destruct F4 as (kc & k2 & FC & F5 & ->).
    cons_inv F5 q TQ F6. cons_inv F6 v TV F7. cons_inv F7 p2 TP2 F8. apply Forall2_app_inv_l in F8. destruct F8 as (kv & k3 & FV & F9 & ->). cons_inv F9 q2 TQ2 F10. inversion F10; subst. destruct CF as [NC NV].
    destruct (sym_tok _ _ TP) as [-> _]. destruct (sym_tok _ _ TQ) as [-> _]. destruct (sym_tok _ _ TP2) as [-> _]. destruct (sym_tok _ _ TQ2) as [-> _]. destruct (name_tk t x TX) as (_ & ID & _).
    exists (length vs). intros m Hm. cbn [read_cmd]. rewrite (isw_kw "insert" k "select" T), (isw_kw "insert" k "insert" T), (isw_kw "into" a "into" TA). change (seqb (u "insert") (u "select")) with false. change (seqb (u "insert") (u "insert")) with true. cbv iota.
    change (seqb (u "into") (u "into") && is_sym SqlRead.LP (TSym (u "("))) with true. cbv iota. rewrite ID. rewrite (idents_tk cs kc (TSym (u ")") :: v :: TSym (u "(") :: kv ++ [TSym (u ")")]) NC FC eq_refl).
    rewrite (isw_kw "values" v "values" TV). change (is_sym RP (TSym (u ")")) && seqb (u "values") (u "values") && is_sym SqlRead.LP (TSym (u "("))) with true. cbv iota.
    rewrite (constants_tk vs kv [TSym (u ")")] m NV FV eq_refl Hm). reflexivity.
  - cons_inv F k T F1. cons_inv F1 x TX F2. cons_inv F2 s TS F3. apply Forall2_app_inv_l in F3. destruct F3 as (kb & kw & FB & FW & ->). destruct CF as [NE WF].
    destruct (where_tk w lw kw [] WL WF FW (stop_nil _) Logic.I) as (n & Hn). exists (n + length sets)%nat. intros m Hm. destruct (name_tk t x TX) as (_ & ID & _).
    cbn [read_cmd]. rewrite (isw_kw "update" k "select" T), (isw_kw "update" k "insert" T), (isw_kw "update" k "update" T), (isw_kw "set" s "set" TS). change (seqb (u "update") (u "select")) with false. change (seqb (u "update") (u "insert")) with false. change (seqb (u "update") (u "update")) with true. change (seqb (u "set") (u "set")) with true. cbv iota.
    rewrite ID. rewrite (assignments_tk sets kb kw m NE FB); [|destruct w; cbn [where_lex] in WL; [destruct WL as (l & _ & ->); cons_inv FW z TZ FZ; apply (sym_kw "where"); exact TZ|subst lw; inversion FW; exact Logic.I]|lia].
    pose proof (Hn m ltac:(lia)) as X. rewrite app_nil_r in X. rewrite X. reflexivity.
  - cons_inv F k T F1. cons_inv F1 f TF F2. cons_inv F2 x TX FW. destruct (where_tk w lw _ [] WL CF FW (stop_nil _) Logic.I) as (n & Hn). exists n. intros m Hm. destruct (name_tk t x TX) as (_ & ID & _).
    cbn [read_cmd]. rewrite (isw_kw "delete" k "select" T), (isw_kw "delete" k "insert" T), (isw_kw "delete" k "update" T), (isw_kw "delete" k "delete" T), (isw_kw "from" f "from" TF).
    change (seqb (u "delete") (u "select")) with false. change (seqb (u "delete") (u "insert")) with false. change (seqb (u "delete") (u "update")) with false. change (seqb (u "delete") (u "delete")) with true. change (seqb (u "from") (u "from")) with true. cbv iota.
    rewrite ID. pose proof (Hn m Hm) as X. rewrite app_nil_r in X. rewrite X. reflexivity.
Qed.
End Clauses.

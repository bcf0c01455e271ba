(** MySQL reads the tokens of an application's text as the statement. *)
From Coq Require Import String Ascii List Arith NArith ZArith Bool Lia ZifyBool ZifyNat ZifyN.
From Verif Require Import Base BaseProof JsonModel DotsModel SqlLex SqlRead FmtModel FmtSpec FmtLexProof FmtReadProof ScrubModel InfixModel InfixSpec OperModel OperSpec EndSpec TextSpec LitModel LitSpec LitProof GramModel GramSpec DirectSpec DirectLexProof.
Import ListNotations.

(** ** Symbols that stand together *)
Definition okend (x : lexeme) : Prop := match x with LSym [a] => a = 41%N | _ => True end.
Definition okstart (y : lexeme) : Prop := match y with LSym (b :: _) => second b = false \/ b = 45%N | _ => True end.
Lemma pair_end x y : okend x -> okpair x y.
Proof.
  destruct x; try exact (fun _ => Logic.I). destruct s as [|a [|a' s]]; try exact (fun _ => Logic.I). cbn [okend okpair]. intros ->. destruct y; try exact Logic.I. destruct s as [|b s]; [exact Logic.I|]. left.
  destruct (smem2 [41%N; b] (comment_starts ++ symbols2)) eqn:E; [|reflexivity]. exfalso. unfold smem2 in E. apply existsb_exists in E. destruct E as (x & X & E). apply seqb_eq in E. subst x.
  unfold comment_starts, symbols2 in X. cbn [map app In] in X. repeat (destruct X as [X|X]; [discriminate X|]). contradiction.
Qed.
Lemma pair_start x y : okstart y -> okpair x y.
Proof.
  destruct x; try exact (fun _ => Logic.I). destruct s as [|a [|a' s]]; try exact (fun _ => Logic.I). cbn [okpair]. destruct y; try exact (fun _ => Logic.I). destruct s as [|b s]; [exact (fun _ => Logic.I)|]. cbn [okstart].
  intros [H| ->]; [left; now apply second_ok|]. destruct (N.eqb_spec a 45) as [->|NA]; [now right|left].
  destruct (smem2 [a; 45%N] (comment_starts ++ symbols2)) eqn:E; [|reflexivity]. exfalso. unfold smem2 in E. apply existsb_exists in E. destruct E as (x & X & E). apply seqb_eq in E. subst x.
  unfold comment_starts, symbols2 in X. cbn [map app In] in X. repeat (destruct X as [X|X]; [first [discriminate X|injection X as X; congruence]|]). contradiction.
Qed.
Definition starts (l : list lexeme) : Prop := match l with y :: _ => okstart y | [] => True end.
Definition last_ok (l : list lexeme) : Prop := okend (last l (LName [])).
Lemma fine_cons x l : fine l -> starts l \/ okend x -> fine (x :: l).
Proof. destruct l as [|y l]; [exact (fun _ _ => Logic.I)|]. intros F [S|S]; (split; [|exact F]); [now apply pair_start|now apply pair_end]. Qed.
Lemma fine_app l1 l2 : fine l1 -> fine l2 -> starts l2 \/ last_ok l1 -> fine (l1 ++ l2).
Proof.
  induction l1 as [|x l1 IH]; [auto|]. intros F1 F2 H. destruct l1 as [|y l1].
  - apply fine_cons; [exact F2|exact H].
  - split; [apply F1|]. apply IH; [apply F1|exact F2|exact H].
Qed.
Lemma last_app (a b : list lexeme) : b <> [] -> last_ok b -> last_ok (a ++ b).
Proof. unfold last_ok. induction a as [|x a IH]; [auto|]. intros NE H. specialize (IH NE H). cbn [app]. destruct (a ++ b) eqn:E; [apply app_eq_nil in E; tauto|exact IH]. Qed.
Lemma last_cons x (b : list lexeme) : b <> [] -> last_ok b -> last_ok (x :: b).
Proof. exact (last_app [x] b). Qed.
Lemma starts_app a b : a <> [] -> starts a -> starts (a ++ b).
Proof. destruct a; [congruence|auto]. Qed.
Definition part_fine (l : list lexeme) : Prop := l <> [] /\ fine l /\ starts l /\ last_ok l.
Lemma one_fine x : okstart x -> okend x -> part_fine [x].
Proof. now repeat split. Qed.
Lemma pf_app a b : part_fine a -> part_fine b -> part_fine (a ++ b).
Proof.
  intros (A1 & A2 & A3 & A4) (B1 & B2 & B3 & B4). repeat split; [destruct a; [congruence|discriminate]|apply fine_app; auto|now apply starts_app|now apply last_app].
Qed.
Lemma pf_cons x b : okstart x -> part_fine b -> part_fine (x :: b).
Proof.
  intros S (B1 & B2 & B3 & B4). repeat split; [discriminate|apply fine_cons; auto|exact S|now apply last_cons].
Qed.
Lemma pf_mid a (o : list lexeme) b : part_fine a -> fine o -> part_fine b -> part_fine (a ++ o ++ b).
Proof.
  intros (A1 & A2 & A3 & A4) O (B1 & B2 & B3 & B4). repeat split; [destruct a; [congruence|discriminate]| |now apply starts_app|].
  - apply fine_app; [exact A2|apply fine_app; auto|now right].
  - rewrite app_assoc. now apply last_app.
Qed.
Lemma operand_fine x l : operand x l -> part_fine [l].
Proof. intros H; destruct H; now apply one_fine. Qed.
Lemma separated_fine l : l <> [] -> Forall part_fine l -> part_fine (separated l).
Proof.
  intros NE F. induction F as [|x l P F IH]; [congruence|]. destruct l as [|y l]; [exact P|]. change (separated (x :: y :: l)) with (x ++ Y "," :: separated (y :: l)).
  apply pf_app; [exact P|]. apply pf_cons; [left; reflexivity|]. apply IH. discriminate.
Qed.
Lemma listed_fine l : (forall x, In x l -> part_fine x) -> part_fine (Y "(" :: separated l ++ [Y ")"]).
Proof.
  intros H. destruct l as [|x l]; [repeat split; try discriminate; left; reflexivity|]. apply pf_cons; [left; reflexivity|]. apply pf_app; [|apply one_fine; [left; reflexivity|reflexivity]].
  apply separated_fine; [discriminate|]. now apply Forall_forall.
Qed.
Lemma cond_fine s ls : cond_lex s ls -> part_fine ls.
Proof.
  induction 1 as [x t l O| |s ls _ IH|z _|s ls _ IH|s ls _ IH|o alt a b la lb _ IHa _ IHb|n m l lm ll _ IHm FL|n a b c la lb lc _ IHa _ IHb _ IHc|n s ls _ IH].
  - now apply (operand_fine x).
  - now apply one_fine.
  - apply pf_cons; [left; reflexivity|]. apply pf_app; [exact IH|]. apply one_fine; [left; reflexivity|reflexivity].
  - apply pf_cons; [right; reflexivity|]. now apply one_fine.
  - apply pf_cons; [left; reflexivity|exact IH].
  - now apply pf_cons.
  - apply pf_mid; [exact IHa| |exact IHb]. destruct o, alt; repeat split.
  - apply pf_mid; [exact IHm|destruct n; repeat split|]. apply listed_fine. intros x X. rewrite in_map_iff in X. destruct X as (y & <- & Y). induction FL as [|p q l ll O FL IH]; [contradiction|].
    destruct Y as [<-|Y]; [now apply (operand_fine (fst p))|now apply IH].
  - apply pf_mid; [exact IHa|destruct n; repeat split|]. apply pf_app; [exact IHb|]. now apply pf_cons.
  - apply pf_app; [exact IH|]. destruct n; repeat split; discriminate.
Qed.
Lemma where_fine w lw : where_lex w lw -> fine lw /\ starts lw.
Proof.
  destruct w as [s|]; cbn [where_lex]; [|intros ->; repeat split]. intros (l & C & ->). apply cond_fine in C. destruct C as (_ & F & S & _). split; [|exact Logic.I]. apply fine_cons; [exact F|now left].
Qed.
Lemma const_fine k : part_fine (const_lex k).
Proof. destruct k as [z|s]; cbn [const_lex]; [destruct (z <? 0)%Z|]; [apply pf_cons; [right; reflexivity|]| |]; now apply one_fine. Qed.
Lemma names_fine cs : cs <> [] -> part_fine (separated (map (fun c => [LName c]) cs)).
Proof.
  intros NE. apply separated_fine; [destruct cs; [congruence|discriminate]|]. apply Forall_forall. intros x X. rewrite in_map_iff in X. destruct X as (y & <- & _). now apply one_fine.
Qed.
Lemma items_fine i li : items_lex i li -> li <> [] /\ fine li.
Proof.
  intros [|l NE _|f _|f mx c _].
  - repeat split; discriminate.
  - destruct (names_fine l NE) as (A & B & _). now split.
  - repeat split; try discriminate; left; reflexivity.
  - repeat split; discriminate.
Qed.
Lemma cmd_fine c ls : cmd_lex c ls -> fine ls.
Proof.
  intros [i t w o lim li lw HI HW|tab t cs vs|t sets w lw HW|t w lw HW].
  - destruct (items_fine i li HI) as [_ FI]. destruct (where_fine w lw HW) as [FW SW]. apply fine_cons; [|now right]. apply fine_app; [exact FI| |now left].
    apply fine_cons; [|now right]. apply fine_cons; [|now right]. apply fine_app; [exact FW| |left; destruct o as [[c0 d]|]; [exact Logic.I|destruct lim as [[n k]|]; exact Logic.I]].
    apply fine_app; [destruct o as [[c0 [|]]|]; repeat split|destruct lim as [[n [k|]]|]; repeat split|left; destruct lim as [[n k]|]; exact Logic.I].
  - assert (NF : part_fine (Y "(" :: separated (map (fun c => [LName c]) cs) ++ [Y ")"])).
    { apply listed_fine. intros x X. rewrite in_map_iff in X. destruct X as (y & <- & _). now apply one_fine. }
    assert (VF : part_fine (Y "(" :: separated (map const_lex vs) ++ [Y ")"])).
    { apply listed_fine. intros x X. rewrite in_map_iff in X. destruct X as (y & <- & _). apply const_fine. }
    apply fine_cons; [|now right]. apply fine_cons; [|now right]. apply fine_app; [destruct tab; repeat split| |now left]. apply fine_cons; [|now right].
    set (v := Y "(" :: separated (map const_lex vs) ++ [Y ")"]) in *. clearbody v.
    change (Y "(" :: separated (map (fun c0 => [LName c0]) cs) ++ Y ")" :: K "values" :: v) with ((Y "(" :: separated (map (fun c0 => [LName c0]) cs)) ++ [Y ")"] ++ K "values" :: v).
    rewrite app_assoc. apply fine_app; [apply NF| |now left]. apply fine_cons; [apply VF|now right].
  - destruct (where_fine w lw HW) as [FW SW]. do 3 (apply fine_cons; [|now right]). apply fine_app; [|exact FW|now left].
    destruct sets as [|p sets]; [exact Logic.I|]. apply separated_fine; [discriminate|]. apply Forall_forall. intros x X. rewrite in_map_iff in X. destruct X as (y & <- & _).
    destruct (const_fine (snd y)) as (NE & F & S & L). split; [discriminate|]. split; [|split; [exact Logic.I|]].
    + apply fine_cons; [|now right]. apply fine_cons; [exact F|now left].
    + apply last_cons; [discriminate|]. now apply last_cons.
  - destruct (where_fine w lw HW) as [FW SW]. do 3 (apply fine_cons; [|now right]). exact FW.
Qed.

(** ** Conditions *)
(** The level that MySQL gives to the outermost operator, and the least level at which it is read. *)
Definition mlev (s : sx) : nat :=
  match s with
  | XBin o _ _ _ => mysql_lev (KBin o)
  | XIn n _ _ => mysql_lev (KIn n)
  | XBetween n _ _ _ => mysql_lev (KBetween n)
  | XIs n _ => mysql_lev (KIs n)
  | XNot _ => mysql_lev KNot
  | _ => 0
  end.
Definition need (s : sx) : nat := match s with XNot _ => 0 | _ => mlev s end.
(** Grouped as MySQL does. *)
Fixpoint mok (s : sx) : Prop :=
  match s with
  | XAtom x t => simple_atoms (XAtom x t)
  | XNull | XMinus _ => True
  | XPar s => mok s
  | XBnot _ => False
  | XNot s => (need s <= 10)%nat /\ (mlev s <= 11)%nat /\ mok s
  | XBin o _ a b => (mlev a <= mysql_lev (KBin o))%nat /\ (mlev b < mysql_lev (KBin o))%nat /\ mok a /\ mok b
  | XIn _ m l => (mlev m <= 9)%nat /\ mok m /\ l <> [] /\ Forall (fun p => member_ok p /\ value_tree (snd p) = true) l
  | XBetween _ a b c => (mlev a <= 10)%nat /\ (mlev b < 10)%nat /\ (mlev c < 10)%nat /\ mok a /\ mok b /\ mok c
  | XIs _ s => (mlev s <= 9)%nat /\ mok s
  end.
Lemma need_mlev s : (need s <= mlev s)%nat.
Proof. destruct s; cbn [need]; lia. Qed.
Lemma mlev_top s : (mlev s <= 14)%nat.
Proof. destruct s; cbn [mlev mysql_lev]; try lia. destruct o; cbn; lia. Qed.

Section Grouping.
Variable ft : pystr -> bool.
Lemma value_mok s : simple_atoms s -> source ft s -> value_tree (mean s) = true -> mok s /\ mlev s = 0%nat.
Proof.
  induction s; intros A S V; cbn [mean] in V; try discriminate V; try (split; [exact A|reflexivity]); try (now repeat split).
  split; [|reflexivity]. cbn [mok]. apply IHs; [exact A|apply S|exact V].
Qed.
Lemma search_mok s : simple_atoms s -> source ft s -> respects sql_levels (code ft s) -> search (mean s) ->
  mok s /\ (lev (code ft s) <= S O_not -> need s <= 10 /\ mlev s <= 11)%nat /\ (lev (code ft s) <= S O_and -> mlev s <= 12)%nat.
Proof.
  induction s as [x t| |s IH|z|s IH|s IH|o alt a IHa b IHb|n m IHm l|n a IHa b IHb c IHc|n s IH]; intros A S R H; cbn [mean] in H.
  - exfalso. cbn [simple_atoms] in A. destruct x as [| |v|z| |op ar kws|d|l|nm g an ts]; try contradiction.
    + subst t. inversion H.
    + subst t. unfold int_of in H. destruct (z <? 0)%Z; inversion H.
    + destruct d as [|[k y] [|? ?]]; try contradiction; destruct y; try contradiction. destruct A as [_ ->]. inversion H.
  - inversion H.
  - destruct S as [R' S]. split; [|cbn [mlev need]; lia]. cbn [mok]. now apply IH.
  - inversion H.
  - inversion H.
  - cbn [code respects] in R. destruct R as (_ & LV & R). inversion H as [| | | |t' H'| |]; subst. destruct (IH A S R H') as (M & L1 & L2). cbn [mok mlev need mysql_lev].
    destruct (L1 LV). repeat split; try assumption; lia.
  - cbn [code respects] in R. destruct R as (_ & LA & LB & RA & RB). cbn [simple_atoms] in A. destruct A as [AA AB]. cbn [source] in S. destruct S as (_ & SA & SB).
    inversion H as [o' a' b' C VA VB| | | | |a' b' HA HB|a' b' HA HB]; subst.
    + destruct (value_mok a AA SA VA) as [MA ZA]. destruct (value_mok b AB SB VB) as [MB ZB]. assert (L9 : mysql_lev (KBin o) = 9%nat) by (destruct o; try discriminate C; reflexivity).
      cbn [mok mlev need]. rewrite L9. repeat split; try assumption; lia.
    + destruct (IHa AA SA RA HA) as (MA & A1 & A2). destruct (IHb AB SB RB HB) as (MB & B1 & B2). cbn [bin_tok fst] in LA, LB. cbn [mok mlev need mysql_lev code lev bin_tok fst].
      assert (lev (code ft b) <= S O_not)%nat by (revert LB; unfold O_and, O_not; lia). specialize (A2 LA). destruct (B1 H0). repeat split; try assumption; try lia; unfold O_and, O_not in *; lia.
    + destruct (IHa AA SA RA HA) as (MA & A1 & A2). destruct (IHb AB SB RB HB) as (MB & B1 & B2). cbn [bin_tok fst] in LA, LB. cbn [mok mlev need mysql_lev code lev bin_tok fst].
      assert (lev (code ft b) <= S O_and)%nat by (revert LB; unfold O_and, O_or; lia). specialize (B2 H0). pose proof (mlev_top a). repeat split; try assumption; try lia; unfold O_and, O_or, O_not in *; lia.
  - cbn [simple_atoms] in A. cbn [source] in S. destruct S as (SM & L2 & MO). inversion H as [|n' m' l' VM VL| | | | |]; subst. destruct (value_mok m A SM VM) as [MM ZM].
    cbn [mok mlev need mysql_lev]. repeat split; try assumption; try lia.
    + intros ->. cbn in L2. lia.
    + rewrite Forall_forall in *. intros p P. split; [now apply MO|]. rewrite forallb_forall in VL. apply VL. now apply in_map.
  - cbn [simple_atoms] in A. destruct A as (AA & AB & AC). cbn [source] in S. destruct S as (SA & SB & SC). inversion H as [| |n' a' b' c' VA VB VC| | | |]; subst.
    destruct (value_mok a AA SA VA) as [MA ZA]. destruct (value_mok b AB SB VB) as [MB ZB]. destruct (value_mok c AC SC VC) as [MC ZC].
    cbn [mok mlev need mysql_lev]. repeat split; try assumption; lia.
  - cbn [simple_atoms] in A. cbn [source] in S. inversion H as [| | |n' t' V| | |]; subst. destruct (value_mok s A S V) as [M Z]. cbn [mok mlev need mysql_lev]. repeat split; try assumption; lia.
Qed.
End Grouping.

Section Cond.
Notation rd := (SqlRead.rd mysql_lev 14).
Notation loop := (SqlRead.loop mysql_lev 14).
Notation atom := (SqlRead.atom mysql_lev 14).
Notation args := (SqlRead.args mysql_lev 14).
Notation stop := (FmtReadProof.stop mysql_lev).

Definition reads_as (s : sx) (ks : list token) : Prop :=
  forall l rest r, (need s <= l)%nat -> stop (mlev s) rest ->
  evt (fun n => loop n l (mean s) rest) r -> evt (fun n => rd n l (ks ++ rest)) r.

Lemma kw_low t w : map low t = u w -> SqlRead.kw_of t = SqlRead.kw_of (u w) \/ map low (u w) <> u w.
Proof.
  intros H. destruct (list_eq_dec N.eq_dec (map low (u w)) (u w)) as [E|E]; [left|now right]. unfold SqlRead.kw_of. rewrite H, E. reflexivity.
Qed.
Lemma kw_tok w k : tk (K w) k -> map low (u w) = u w -> exists t, k = TWord t /\ map low t = u w /\ SqlRead.kw_of t = SqlRead.kw_of (u w).
Proof.
  intros T E. inversion T as [? t X| | | | | |]; subst. exists t. split; [reflexivity|]. split; [exact X|]. destruct (kw_low t w X); [assumption|contradiction].
Qed.
Lemma sym_tok s k : tk (LSym s) k -> k = TSym s /\ s <> u "==".
Proof. intros T. inversion T. now split. Qed.
Lemma num_tok z k : tk (LNum z) k -> exists t, k = TNum t /\ numval t = z.
Proof. intros T. inversion T. now eexists. Qed.
Lemma str_tok v k : tk (LStr v) k -> k = TStr v.
Proof. intros T. now inversion T. Qed.
Lemma name_tk v k : tk (LName v) k -> name_tok k = Some v /\ ident k = Some v /\ (k = TWord v \/ k = TQuoted v) /\ ~ In 46%N v /\ ~ In 8%N v.
Proof.
  intros T. inversion T as [|? KW SW D B|? D B| | | |]; subst; (split; [|split; [|split; [auto|now split]]]); cbn [ident name_tok]; try reflexivity.
  - now rewrite KW.
  - destruct (smem (map low v) stmt_words) eqn:S; [apply smem_In in S; contradiction|]. now rewrite KW.
Qed.
Ltac inv2 H := inversion H; subst; clear H.

Lemma atom_name v k rest : tk (LName v) k -> stop 0 rest -> evt (fun n => atom n (k :: rest)) (ECol [v], rest).
Proof.
  intros T [S _]. destruct (name_tk v k T) as (N & _ & F & _ & _). eapply evt_S; [intros n; rewrite atom_S; reflexivity|].
  assert (C : call_tok k rest = None).
  { destruct F as [->| ->]; [|reflexivity]. destruct rest as [|p q]; [reflexivity|]. cbn [call_tok]. destruct S as [-> _]. reflexivity. }
  assert (D : SqlRead.dotted rest = ([], rest)). { destruct rest as [|p [|q r]]; [reflexivity|reflexivity|]. cbn [SqlRead.dotted]. destruct S as [_ ->]. reflexivity. }
  rewrite C, N, D. apply evt_const.
Qed.
Lemma atom_num z k rest : tk (LNum z) k -> evt (fun n => atom n (k :: rest)) (EInt z, rest).
Proof. intros T. destruct (num_tok z k T) as (t & -> & <-). eapply evt_S; [intros n; rewrite atom_S; reflexivity|]. apply evt_const. Qed.
Lemma atom_str v k rest : tk (LStr v) k -> evt (fun n => atom n (k :: rest)) (EStr v, rest).
Proof. intros T. rewrite (str_tok v k T). eapply evt_S; [intros n; rewrite atom_S; reflexivity|]. apply evt_const. Qed.
Lemma atom_null k rest : tk (K "null") k -> evt (fun n => atom n (k :: rest)) (ENull, rest).
Proof.
  intros T. destruct (kw_tok "null" k T eq_refl) as (t & -> & _ & E). change (SqlRead.kw_of (u "null")) with (Some WNull) in E.
  eapply evt_S; [intros n; rewrite atom_S; reflexivity|].
  assert (C : call_tok (TWord t) rest = None). { destruct rest as [|p q]; [reflexivity|]. cbn [call_tok]. rewrite E. now destruct (is_sym SqlRead.LP p). }
  rewrite C. cbn [name_tok]. rewrite E. apply evt_const.
Qed.
Lemma plain_col v t : ~ In 46%N v -> ~ In 8%N v -> col_of v = Some t -> value_tree t = true -> t = ECol [v].
Proof.
  intros D B C V. unfold col_of in C. destruct (seqb v (u "*")); [injection C as <-; discriminate V|].
  unfold split_field in C. assert (D' : has_char DOT v = false). { destruct (has_char DOT v) eqn:E; [|reflexivity]. exfalso. apply D. now apply DotsProof.has_char_In in E. }
  assert (B' : has_char BS v = false). { destruct (has_char BS v) eqn:E; [|reflexivity]. exfalso. apply B. now apply DotsProof.has_char_In in E. }
  rewrite D', B' in C. destruct (seqb v [DOT]); [discriminate C|]. cbn in C. now injection C as <-.
Qed.
(** Operands of conditions and members of IN lists. *)
Lemma atom_operand x l k t rest : operand x l -> tk l k -> stop 0 rest ->
  (simple_atoms (XAtom x t) \/ (member_ok (x, t) /\ value_tree t = true)) -> evt (fun n => atom n (k :: rest)) (t, rest).
Proof.
  intros O T S M. destruct O as [v|z Z|s|].
  - assert (t = ECol [v]) as ->. { destruct M as [M|[[_ M] V]]; [exact M|]. destruct (name_tk v k T) as (_ & _ & _ & D & B). now apply plain_col. }
    now apply atom_name.
  - assert (t = EInt z) as ->. { assert (t = int_of z) as -> by (destruct M as [M|[M _]]; exact M). unfold int_of. destruct (Z.ltb_spec z 0); [lia|reflexivity]. }
    now apply atom_num.
  - assert (t = EStr s) as -> by (destruct M as [[_ M]|[[_ M] _]]; exact M). now apply atom_str.
  - assert (t = ENull) as -> by (destruct M as [M|[M _]]; [contradiction|exact M]). now apply atom_null.
Qed.
Lemma stop0_comma rest : stop 0 (TSym COMMA :: rest). Proof. apply stop_comma. Qed.
Lemma args_members : forall l ll ks rest, Forall2 (fun p x => operand (fst p) x) l ll -> l <> [] -> Forall (fun p => member_ok p /\ value_tree (snd p) = true) l ->
  Forall2 tk (separated (map (fun x => [x]) ll) ++ [Y ")"]) ks -> evt (fun n => args n (ks ++ rest)) (map snd l, rest).
Proof.
  intros l ll ks rest F. revert ks. induction F as [|[x t] y l ll O F IH]; intros ks NE M T; [congruence|]. inversion_clear M as [|? ? M1 M2]. cbn [fst snd] in *.
  destruct F as [|[x2 t2] y2 l ll O2 F].
  - cbn [map separated app] in T. inversion T as [|? k ? ks1 T1 T2]; subst. inversion T2 as [|? p ? ks2 T3 T4]; subst. inversion T4; subst. destruct (sym_tok _ _ T3) as [-> _]. cbn [app map snd].
    eapply evt_S. { intros n. rewrite args_S. replace (is_sym RP k) with false by (destruct O; inversion T1; reflexivity). reflexivity. }
    apply (evt_2 _ (fun n (z : tree * list token) => match z with
        | (a, q :: r') => if is_sym RP q then Some ([a], r') else if is_sym COMMA q then match args n r' with Some ([], _) => None | Some (l, r'') => Some (a :: l, r'') | None => None end else None
        | _ => None end) (t, TSym (u ")") :: rest)); [|apply evt_const].
    eapply (rd_atom mysql_lev 14 14 _ t (TSym (u ")") :: rest)); [apply (atom_operand x y); auto; apply stop_rp|]. apply loop_stop, stop_rp.
  - cbn [map] in T. change (separated ([y] :: [y2] :: map (fun x => [x]) ll) ++ [Y ")"]) with (y :: Y "," :: separated (map (fun x => [x]) (y2 :: ll)) ++ [Y ")"]) in T.
    inversion T as [|? k ? ks1 T1 T2]; subst. inversion T2 as [|? p ? ks2 T3 T4]; subst. destruct (sym_tok _ _ T3) as [-> _]. cbn [app].
    specialize (IH ks2 ltac:(discriminate) M2 T4).
    eapply evt_S. { intros n. rewrite args_S. replace (is_sym RP k) with false by (destruct O; inversion T1; reflexivity). reflexivity. }
    apply (evt_2 _ (fun n (z : tree * list token) => match z with
        | (a, q :: r') => if is_sym RP q then Some ([a], r') else if is_sym COMMA q then match args n r' with Some ([], _) => None | Some (l, r'') => Some (a :: l, r'') | None => None end else None
        | _ => None end) (t, TSym (u ",") :: ks2 ++ rest)).
    + eapply (rd_atom mysql_lev 14 14 _ t (TSym (u ",") :: ks2 ++ rest)); [apply (atom_operand x y); auto; apply stop_comma|]. apply loop_stop, stop_comma.
    + change (is_sym RP (TSym (u ","))) with false. change (is_sym COMMA (TSym (u ","))) with true. cbv iota.
      apply (evt_2 _ (fun (n : nat) (z : list tree * list token) => match z with ([], _) => None | (l, r'') => Some (t :: l, r'') end) _ _ IH). apply evt_const.
Qed.
Lemma op_peek o alt ks rest : Forall2 tk (op_lex o alt) ks -> peek (ks ++ rest) = Some (KBin o, rest) /\ match ks ++ rest with t :: _ => is_sym SqlRead.LP t = false /\ is_sym PERIOD t = false | [] => True end.
Proof.
  assert (S1 : forall (s : string) o, Forall2 tk [Y s] ks -> sym_op (u s) = Some o -> seqb (u s) SqlRead.LP = false -> seqb (u s) PERIOD = false ->
    peek (ks ++ rest) = Some (KBin o, rest) /\ match ks ++ rest with t :: _ => is_sym SqlRead.LP t = false /\ is_sym PERIOD t = false | [] => True end).
  { intros s o' F E E1 E2. inversion F as [|? k ? ks1 T1 T2]; subst. inversion T2; subst. destruct (sym_tok _ _ T1) as [-> _]. cbn [app peek is_sym]. rewrite E. auto. }
  assert (S2 : forall (w : string) o k0, Forall2 tk [K w] ks -> map low (u w) = u w -> SqlRead.kw_of (u w) = Some k0 ->
     (forall t, SqlRead.kw_of t = Some k0 -> peek (TWord t :: rest) = Some (KBin o, rest)) ->
    peek (ks ++ rest) = Some (KBin o, rest) /\ match ks ++ rest with t :: _ => is_sym SqlRead.LP t = false /\ is_sym PERIOD t = false | [] => True end).
  { intros w o' k0 F E1 E2 P. inversion F as [|? k ? ks1 T1 T2]; subst. inversion T2; subst. destruct (kw_tok w k T1 E1) as (t & -> & _ & E). cbn [app]. split; [apply P; congruence|now split]. }
  assert (S3 : forall (w : string) o k0, Forall2 tk [K "not"; K w] ks -> map low (u w) = u w -> SqlRead.kw_of (u w) = Some k0 ->
     (forall t t', SqlRead.kw_of t = Some WNot -> SqlRead.kw_of t' = Some k0 -> peek (TWord t :: TWord t' :: rest) = Some (KBin o, rest)) ->
    peek (ks ++ rest) = Some (KBin o, rest) /\ match ks ++ rest with t :: _ => is_sym SqlRead.LP t = false /\ is_sym PERIOD t = false | [] => True end).
  { intros w o' k0 F E1 E2 P. inversion F as [|? k ? ks1 T1 T2]; subst. inversion T2 as [|? k' ? ks2 T3 T4]; subst. inversion T4; subst.
    destruct (kw_tok "not" k T1 eq_refl) as (t & -> & _ & E). destruct (kw_tok w k' T3 E1) as (t' & -> & _ & E'). cbn [app]. split; [apply P; [exact E|congruence]|now split]. }
  intros F. destruct o; cbn [op_lex] in F;
    try (apply (S1 _ _ F); reflexivity);
    try (apply (S2 _ _ _ F eq_refl eq_refl); intros t E; cbn [peek]; rewrite E; reflexivity);
    try (apply (S3 _ _ _ F eq_refl eq_refl); intros t t' E E'; cbn [peek]; rewrite E, E'; reflexivity).
  - destruct alt; [|apply (S1 _ _ F); reflexivity]. inversion F as [|? k ? ks1 T1 T2]; subst. destruct (sym_tok _ _ T1) as [_ X]. now contradiction X.
  - destruct alt; apply (S1 _ _ F); reflexivity.
Qed.
Lemma in_peek (n : bool) ks rest : Forall2 tk (if n then [K "not"; K "in"] else [K "in"]) ks -> peek (ks ++ rest) = Some (KIn n, rest) /\ match ks ++ rest with t :: _ => is_sym SqlRead.LP t = false /\ is_sym PERIOD t = false | [] => True end.
Proof.
  destruct n; intros F; inversion F as [|? k ? ks1 T1 T2]; subst.
  - inversion T2 as [|? k' ? ks2 T3 T4]; subst. inversion T4; subst. destruct (kw_tok "not" k T1 eq_refl) as (t & -> & _ & E). destruct (kw_tok "in" k' T3 eq_refl) as (t' & -> & _ & E'). cbn [app peek]. now rewrite E, E'.
  - inversion T2; subst. destruct (kw_tok "in" k T1 eq_refl) as (t & -> & _ & E). cbn [app peek]. now rewrite E.
Qed.
Lemma between_peek (n : bool) ks rest : Forall2 tk (if n then [K "not"; K "between"] else [K "between"]) ks -> peek (ks ++ rest) = Some (KBetween n, rest) /\ match ks ++ rest with t :: _ => is_sym SqlRead.LP t = false /\ is_sym PERIOD t = false | [] => True end.
Proof.
  destruct n; intros F; inversion F as [|? k ? ks1 T1 T2]; subst.
  - inversion T2 as [|? k' ? ks2 T3 T4]; subst. inversion T4; subst. destruct (kw_tok "not" k T1 eq_refl) as (t & -> & _ & E). destruct (kw_tok "between" k' T3 eq_refl) as (t' & -> & _ & E'). cbn [app peek]. now rewrite E, E'.
  - inversion T2; subst. destruct (kw_tok "between" k T1 eq_refl) as (t & -> & _ & E). cbn [app peek]. now rewrite E.
Qed.
Lemma is_peek (n : bool) ks rest : Forall2 tk (if n then [K "is"; K "not"; K "null"] else [K "is"; K "null"]) ks -> peek (ks ++ rest) = Some (KIs n, rest) /\ match ks ++ rest with t :: _ => is_sym SqlRead.LP t = false /\ is_sym PERIOD t = false | [] => True end.
Proof.
  destruct n; intros F; inversion F as [|? k ? ks1 T1 T2]; subst; inversion T2 as [|? k' ? ks2 T3 T4]; subst; destruct (kw_tok "is" k T1 eq_refl) as (t & -> & _ & E).
  - inversion T4 as [|? k2 ? ks3 T5 T6]; subst. inversion T6; subst. destruct (kw_tok "not" k' T3 eq_refl) as (t' & -> & _ & E'). destruct (kw_tok "null" k2 T5 eq_refl) as (t2 & -> & _ & E2). cbn [app peek]. now rewrite E, E', E2.
  - inversion T4; subst. destruct (kw_tok "null" k' T3 eq_refl) as (t' & -> & _ & E'). cbn [app peek]. now rewrite E, E'.
Qed.

Lemma cond_reads s0 ls0 : cond_lex s0 ls0 -> mok s0 -> forall ks, Forall2 tk ls0 ks -> reads_as s0 ks.
Proof.
  assert (AT : forall s ks, need s = 0%nat -> (forall rest, stop (mlev s) rest -> evt (fun n => atom n (ks ++ rest)) (mean s, rest)) -> reads_as s ks).
  { intros s ks _ A l rest r _ S L. apply (rd_atom mysql_lev 14 l _ (mean s) rest r); [now apply A|exact L]. }
  induction 1 as [x t l O| |s ls _ IH|z Z|s ls _ IH|s ls _ IH|o alt a b la lb _ IHa _ IHb|n m l lm ll _ IHm FL|n a b c la lb lc _ IHa _ IHb _ IHc|n s ls _ IH]; intros M ks F; cbn [mok] in M.
  - inversion F as [|? k ? ks1 T1 T2]; subst. inversion T2; subst. apply AT; [reflexivity|]. intros rest S. cbn [app mean]. apply (atom_operand x l); auto.
  - inversion F as [|? k ? ks1 T1 T2]; subst. inversion T2; subst. apply AT; [reflexivity|]. intros rest S. now apply atom_null.
  - inversion F as [|? k ? ks1 T1 T2]; subst. destruct (sym_tok _ _ T1) as [-> _]. apply Forall2_app_inv_l in T2. destruct T2 as (ks2 & ks3 & F2 & F3 & ->). inversion F3 as [|? k ? ? T3 T4]; subst. inversion T4; subst. destruct (sym_tok _ _ T3) as [-> _].
    specialize (IH M ks2 F2). apply AT; [reflexivity|]. intros rest S. cbn [mean]. eapply evt_S. { intros n. rewrite <- app_comm_cons. rewrite atom_S. cbn [call_tok name_tok]. rewrite <- app_assoc. cbn [app seqb]. reflexivity. }
    cbn. apply (evt_2 _ (fun n (x : tree * list token) => match x with (a, p :: r') => if is_sym RP p then Some (a, r') else None | _ => None end) (mean s, TSym (u ")") :: rest)); [|apply evt_const].
    apply IH; [pose proof (need_mlev s); pose proof (mlev_top s); lia|apply stop_rp|]. apply loop_stop, stop_rp.
  - inversion F as [|? k ? ks1 T1 T2]; subst. destruct (sym_tok _ _ T1) as [-> _]. inversion T2 as [|? k ? ks2 T3 T4]; subst. inversion T4; subst. apply AT; [reflexivity|]. intros rest S. cbn [mean app].
    eapply evt_S; [intros n; rewrite atom_S; reflexivity|]. cbn. apply (evt_2 _ (fun n (x : tree * list token) => let (a, r') := x in Some (ENeg a, r')) (EInt z, rest)); [now apply atom_num|]. apply evt_const.
  - contradiction.
  - destruct M as (N1 & N2 & M). inversion F as [|? k ? ks1 T1 T2]; subst. destruct (kw_tok "not" k T1 eq_refl) as (t & -> & _ & E). specialize (IH M ks1 T2). apply AT; [reflexivity|]. intros rest S. cbn [mean mlev] in *.
    change (SqlRead.kw_of (u "not")) with (Some WNot) in E.
    eapply evt_S. { intros n. rewrite <- app_comm_cons. rewrite atom_S. reflexivity. }
    assert (C : call_tok (TWord t) (ks1 ++ rest) = None). { destruct (ks1 ++ rest) as [|p q]; [reflexivity|]. cbn [call_tok]. rewrite E. now destruct (is_sym SqlRead.LP p). }
    rewrite C. cbn [name_tok]. rewrite E. cbv iota beta.
    apply (evt_2 _ (fun n (x : tree * list token) => let (a, r') := x in Some (ENot a, r')) (mean s, rest)); [|apply evt_const].
    apply IH; [exact N1|apply (stop_le mysql_lev 11); [exact N2|exact S]|]. apply loop_stop. exact S.
  - destruct M as (LA & LB & MA & MB). apply Forall2_app_inv_l in F. destruct F as (k1 & k2 & F1 & F2 & ->). apply Forall2_app_inv_l in F2. destruct F2 as (k3 & k4 & F3 & F4 & ->).
    specialize (IHa MA k1 F1). specialize (IHb MB k4 F4). intros l rest r Hl S L. cbn [mean mlev need] in *. rewrite <- !app_assoc. destruct (op_peek o alt k3 (k4 ++ rest) F3) as [P1 P2].
    pose proof (need_mlev a). pose proof (need_mlev b).
    apply IHa; [lia|split; [exact P2|rewrite P1; exact LA]|].
    eapply evt_S; [intros n; rewrite loop_S, P1; reflexivity|]. replace (mysql_lev (KBin o) <=? l)%nat with true by lia.
    apply (evt_2 _ (fun n (x : tree * list token) => let (b0, r') := x in loop n l (EBin o (mean a) b0) r') (mean b, rest)); [|exact L].
    apply IHb; [lia|apply (stop_le mysql_lev (mysql_lev (KBin o))); [lia|exact S]|]. apply loop_stop. apply (stop_le mysql_lev (mysql_lev (KBin o))); [lia|exact S].
  - destruct M as (LM & MM & NE & MO). apply Forall2_app_inv_l in F. destruct F as (k1 & k2 & F1 & F2 & ->). apply Forall2_app_inv_l in F2. destruct F2 as (k3 & k4 & F3 & F4 & ->).
    inversion F4 as [|? k ? k5 T1 T2]; subst. destruct (sym_tok _ _ T1) as [-> _]. specialize (IHm MM k1 F1). intros l0 rest r Hl S L. cbn [mean mlev need] in *. rewrite <- !app_assoc. destruct (in_peek n k3 ((TSym (u "(") :: k5) ++ rest) F3) as [P1 P2].
    pose proof (need_mlev m). change (mysql_lev (KIn n)) with 9%nat in *. apply IHm; [lia|split; [exact P2|rewrite P1; exact LM]|].
    eapply evt_S; [intros n0; rewrite loop_S, P1; reflexivity|]. change (mysql_lev (KIn n)) with 9%nat. replace (9 <=? l0)%nat with true by lia. cbn [app]. change (is_sym SqlRead.LP (TSym (u "("))) with true. cbv iota.
    apply (evt_2 _ (fun n' (x : list tree * list token) => let (l1, r') := x in loop n' l0 (EIn n (mean m) l1) r') (map snd l, rest)); [|exact L].
    now apply (args_members l ll).
  - destruct M as (LA & LB & LC & MA & MB & MC). apply Forall2_app_inv_l in F. destruct F as (k1 & k2 & F1 & F2 & ->). apply Forall2_app_inv_l in F2. destruct F2 as (k3 & k4 & F3 & F4 & ->).
    apply Forall2_app_inv_l in F4. destruct F4 as (k5 & k6 & F5 & F6 & ->). inversion F6 as [|? k ? k7 T1 T2]; subst. destruct (kw_tok "and" k T1 eq_refl) as (t & -> & _ & E). change (SqlRead.kw_of (u "and")) with (Some WAnd) in E.
    specialize (IHa MA k1 F1). specialize (IHb MB k5 F5). specialize (IHc MC k7 T2). intros l rest r Hl S L. cbn [mean mlev need] in *. change (mysql_lev (KBetween n)) with 10%nat in *. rewrite <- !app_assoc.
    destruct (between_peek n k3 (k5 ++ (TWord t :: k7) ++ rest) F3) as [P1 P2]. pose proof (need_mlev a). pose proof (need_mlev b). pose proof (need_mlev c).
    apply IHa; [lia|split; [exact P2|rewrite P1; exact LA]|].
    eapply evt_S; [intros n0; rewrite loop_S, P1; reflexivity|]. change (mysql_lev (KBetween n)) with 10%nat. replace (10 <=? l)%nat with true by lia.
    assert (SA : forall k q, (k <= 12)%nat -> stop k (TWord t :: q)). { intros k q Hk. split; [now split|]. cbn [peek]. rewrite E. exact Hk. }
    cbn [app].
    apply (evt_2 _ (fun n' (x : tree * list token) => match x with
       | (b0, TWord w :: r') =>
            match SqlRead.kw_of w with
            | Some WAnd => match rd n' (10 - 1) r' with Some (c0, r'') => loop n' l (EBetween n (mean a) b0 c0) r'' | None => None end
            | _ => None
            end
       | _ => None end) (mean b, TWord t :: k7 ++ rest)).
    + apply IHb; [lia|apply SA; lia|]. apply loop_stop. apply SA. lia.
    + cbv beta iota. rewrite E.
      apply (evt_2 _ (fun n' (x : tree * list token) => let (c0, r'') := x in loop n' l (EBetween n (mean a) (mean b) c0) r'') (mean c, rest)); [|exact L].
      apply IHc; [lia|apply (stop_le mysql_lev 10); [lia|exact S]|]. apply loop_stop. apply (stop_le mysql_lev 10); [lia|exact S].
  - destruct M as (LM & M). apply Forall2_app_inv_l in F. destruct F as (k1 & k2 & F1 & F2 & ->). specialize (IH M k1 F1). intros l rest r Hl S L. cbn [mean mlev need] in *. change (mysql_lev (KIs n)) with 9%nat in *. rewrite <- !app_assoc.
    destruct (is_peek n k2 rest F2) as [P1 P2]. pose proof (need_mlev s). apply IH; [lia|split; [exact P2|rewrite P1; exact LM]|].
    eapply evt_S; [intros n0; rewrite loop_S, P1; reflexivity|]. change (mysql_lev (KIs n)) with 9%nat. replace (9 <=? l)%nat with true by lia. exact L.
Qed.
End Cond.

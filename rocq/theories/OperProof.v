(** Proofs about the parse actions of operator expressions. *)
From Coq Require Import String Ascii List Arith NArith ZArith Bool Lia.
From Verif Require Import Base BaseProof JsonModel DotsModel SqlLex SqlRead FmtModel FmtSpec ScrubModel InfixModel InfixSpec InfixProof
  OperModel OperSpec.
Import ListNotations.

(** Values: not a parse result, or a Group without a name. *)
Definition nice (x : pv) : Prop := match x with PRes n g a _ => n = [] /\ g = true /\ a = false | _ => True end.
Lemma scrub_group x : nice x -> scrub (group x) = scrub x.
Proof.
  unfold group, scrub. destruct x as [| | | | | | | |n g a toks]; try reflexivity.
  intros (-> & -> & ->). reflexivity.
Qed.
Lemma unwrap_group x : unwrap (group x) = unwrap x.
Proof. reflexivity. Qed.
Lemma operands_group op x : operands_of op (group x) = operands_of op x.
Proof. reflexivity. Qed.

Lemma scrub_list l : (2 <= length l)%nat -> scrub (PList l) = OList (map scrub l).
Proof. intros L. unfold scrub. cbn [sem v_out fst]. destruct l as [|x [|y l]]; cbn in L; try lia. reflexivity. Qed.
Lemma scrub_call op l : (2 <= length l)%nat -> scrub (call op l) = ODict [(op, OList (map scrub l))].
Proof.
  intros L. unfold call. change (scrub (PCall op (PList l) [])) with (simple_op op (scrub (PList l)) []).
  rewrite scrub_list by exact L. unfold simple_op. cbn. reflexivity.
Qed.
Lemma scrub_one op x : scrub x <> ONone -> scrub (PCall op x []) = ODict [(op, scrub x)].
Proof.
  intros N. change (scrub (PCall op x [])) with (simple_op op (scrub x) []). unfold simple_op.
  destruct (scrub x); try reflexivity. contradiction.
Qed.
Lemma scrub_call1 op x : scrub x <> ONone -> scrub (call op [x]) = ODict [(op, scrub x)].
Proof. exact (scrub_one op (PList [x])). Qed.
Lemma json_null o : json_of o = JNull -> o = ONone.
Proof. destruct o; cbn; try discriminate; reflexivity. Qed.

Lemma mapO_app {A B} (f : A -> option B) l l' ys ys' : mapO f l = Some ys -> mapO f l' = Some ys' -> mapO f (l ++ l') = Some (ys ++ ys').
Proof.
  revert ys. induction l as [|x l IH]; cbn; intros ys H H'; [injection H as <-; exact H'|].
  destruct (f x); [|discriminate]. destruct (mapO f l); [|discriminate]. injection H as <-. now rewrite (IH _ eq_refl H').
Qed.
Lemma mapO_map {A B C} (f : B -> option C) (g : A -> B) l : mapO f (map g l) = mapO (fun x => f (g x)) l.
Proof. induction l as [|x l IH]; cbn; [reflexivity|]. now rewrite IH. Qed.
Lemma mapO_ext {A B} (f g : A -> option B) l : (forall x, f x = g x) -> mapO f l = mapO g l.
Proof. intros H. induction l as [|x l IH]; cbn; [reflexivity|]. now rewrite H, IH. Qed.
Lemma mapO_len {A B} (f : A -> option B) l ys : mapO f l = Some ys -> length ys = length l.
Proof.
  revert ys. induction l as [|x l IH]; cbn; intros ys H; [now injection H as <-|].
  destruct (f x); [|discriminate]. destruct (mapO f l); [|discriminate]. injection H as <-. cbn. now rewrite (IH _ eq_refl).
Qed.
Lemma mapO_expr l : mapO tree_of (map json_of (map scrub l)) = mapO expr_of l.
Proof. rewrite map_map, mapO_map. reflexivity. Qed.

(** The name under which the parser files an operator. *)
Definition bname (o : binop) : pystr :=
  match o with
  | OConcat => u "concat" | OMul => u "mul" | ODiv => u "div" | OMod => u "mod" | OAdd => u "add" | OSub => u "sub"
  | OBand => u "binary_and" | OBor => u "binary_or" | OLt => u "lt" | OLte => u "lte" | OGt => u "gt" | OGte => u "gte"
  | OEq => u "eq" | ONeq => u "neq" | OLike => u "like" | ONotLike => u "not_like" | ORlike => u "rlike"
  | ONotRlike => u "not_rlike" | OAnd => u "and" | OOr => u "or"
  end.
Lemma tree_binop o l : tree_of (JDict [(bname o, JList l)]) =
  match mapO tree_of l with Some (a :: b :: r) => Some (fold_left (EBin o) (b :: r) a) | _ => None end.
Proof. destruct o; reflexivity. Qed.
Lemma expr_call o l a b r : mapO expr_of l = Some (a :: b :: r) -> expr_of (call (bname o) l) = Some (fold_left (EBin o) (b :: r) a).
Proof.
  intros H. unfold expr_of. rewrite scrub_call by (apply mapO_len in H; rewrite <- H; cbn; lia).
  cbn [json_of map fst snd]. rewrite tree_binop, mapO_expr, H. reflexivity.
Qed.

Lemma fold_assoc o l : assoc_op o = true -> forall a b, assoc_eq (fold_left (EBin o) l (EBin o a b)) (EBin o a (fold_left (EBin o) l b)).
Proof.
  intros A. induction l as [|c l IH]; intros a b; cbn [fold_left]; [constructor|].
  eapply ae_trans; [|apply IH]. clear IH.
  assert (X : assoc_eq (EBin o (EBin o a b) c) (EBin o a (EBin o b c))) by (apply ae_sym; now constructor).
  revert X. generalize (EBin o (EBin o a b) c) (EBin o a (EBin o b c)).
  induction l as [|d l IH]; intros x y X; cbn [fold_left]; [exact X|]. apply IH. apply ae_bin; [exact X|constructor].
Qed.

(** What the value of a source expression has to satisfy. *)
Definition good (x : pv) (t : tree) : Prop :=
  nice x /\ scrub x <> ONone /\ exists t', expr_of x = Some t' /\ assoc_eq t' t /\
  forall o, assoc_op o = true -> exists a r, mapO expr_of (operands_of (bname o) x) = Some (a :: r) /\ fold_left (EBin o) r a = t'.

Lemma good_group x t : good x t -> good (group x) t.
Proof.
  intros (N & S & t' & E & A & F). split; [cbn; auto|]. rewrite scrub_group by exact N. split; [exact S|].
  exists t'. unfold expr_of in *. rewrite scrub_group by exact N. split; [exact E|]. split; [exact A|]. exact F.
Qed.
(** Values that are no call of an associative operator. *)
Lemma good_single x t t' : nice x -> scrub x <> ONone -> expr_of x = Some t' -> assoc_eq t' t ->
  (forall o, assoc_op o = true -> operands_of (bname o) x = [x]) -> good x t.
Proof.
  intros N S E A H. split; [exact N|]. split; [exact S|]. exists t'. split; [exact E|]. split; [exact A|].
  intros o O. rewrite (H o O). cbn. rewrite E. exists t', []. now split.
Qed.
Lemma expr_group x : nice x -> expr_of (group x) = expr_of x.
Proof. intros N. unfold expr_of. now rewrite scrub_group. Qed.
Lemma good_call op l t t' : expr_of (call op l) = Some t' -> assoc_eq t' t -> scrub (call op l) <> ONone ->
  (forall o, assoc_op o = true -> op <> bname o) -> good (group (call op l)) t.
Proof.
  intros E A S H. apply good_group. apply (good_single _ _ t'); try assumption; [exact I|].
  intros o O. unfold operands_of, call. cbn [unwrap]. destruct (seqb op (bname o)) eqn:Q; [|reflexivity].
  apply seqb_eq in Q. now apply H in Q.
Qed.
Lemma operands_call o l : operands_of (bname o) (call (bname o) l) = l.
Proof. unfold operands_of, call. cbn [unwrap]. now rewrite seqb_refl. Qed.
Lemma operands_other o o' l : bname o <> bname o' -> operands_of (bname o') (call (bname o) l) = [call (bname o) l].
Proof.
  intros N. unfold operands_of, call. cbn [unwrap]. destruct (seqb (bname o) (bname o')) eqn:Q; [|reflexivity].
  apply seqb_eq in Q. contradiction.
Qed.
Lemma bname_inj o o' : bname o = bname o' -> o = o'.
Proof. destruct o, o'; first [reflexivity|discriminate]. Qed.
Lemma binop_dec (o o' : binop) : {o = o'} + {o <> o'}.
Proof. decide equality. Qed.

Lemma assoc_spec o : assoc_op o = associative (bname o).
Proof. now destruct o. Qed.
(** The binary case. *)
Lemma binary_good o w a b ta tb : canonical w = bname o -> good a ta -> good b tb ->
  (o = OEq \/ o = ONeq -> is_null_tok a = false /\ is_null_tok b = false) -> good (group (binary a w b)) (EBin o ta tb).
Proof.
  intros W GA GB NN. unfold binary. rewrite W.
  assert (Z : (if seqb (bname o) (u "eq") || seqb (bname o) (u "eq!")
      then if is_null_tok b then Some (PCall (u "missing") a []) else if is_null_tok a then Some (PCall (u "missing") b []) else None
      else if seqb (bname o) (u "neq") || seqb (bname o) (u "ne!")
      then if is_null_tok b then Some (PCall (u "exists") a []) else if is_null_tok a then Some (PCall (u "exists") b []) else None
      else None) = @None pv).
  { destruct o; try reflexivity; cbn [bname]; destruct (NN ltac:(auto)) as [-> ->]; reflexivity. }
  cbv zeta. match goal with |- context [match ?X with Some c => c | None => _ end] => replace X with (@None pv) by (symmetry; exact Z) end.
  rewrite <- assoc_spec.
  destruct GA as (NA & SA & ta' & EA & AA & FA), GB as (NB & SB & tb' & EB & AB & FB).
  destruct (assoc_op o) eqn:O.
  - destruct (FA o O) as (x & r & MX & FX), (FB o O) as (y & r' & MY & FY).
    pose proof (mapO_app _ _ _ _ _ MX MY) as M. rewrite <- app_comm_cons in M.
    set (l := operands_of (bname o) a ++ operands_of (bname o) b) in *.
    assert (L : exists z q, r ++ y :: r' = z :: q) by (destruct r; cbn; eauto). destruct L as (z & q & L).
    apply good_group.
    assert (LL : (2 <= length l)%nat).
    { apply mapO_len in M. rewrite <- M, L. cbn. lia. }
    assert (E : expr_of (call (bname o) l) = Some (fold_left (EBin o) (r ++ y :: r') x)).
    { rewrite (expr_call o l x z q); [now rewrite L|]. now rewrite <- L. }
    assert (SC : scrub (call (bname o) l) <> ONone) by (rewrite scrub_call by exact LL; discriminate).
    split; [exact I|]. split; [exact SC|]. exists (fold_left (EBin o) (r ++ y :: r') x). split; [exact E|]. split.
    + rewrite fold_left_app, FX. cbn [fold_left]. eapply ae_trans; [now apply fold_assoc|]. rewrite FY. now apply ae_bin.
    + intros o' O'. destruct (binop_dec o o') as [->|NE].
      * rewrite operands_call. exists x, (r ++ y :: r'). now split.
      * rewrite operands_other by (intros H; now apply bname_inj in H). cbn [mapO]. rewrite E. eexists _, []. split; reflexivity.
  - apply (good_call _ _ _ (EBin o ta' tb')).
    + rewrite (expr_call o [a; b] ta' tb' []); [reflexivity|]. cbn. now rewrite EA, EB.
    + now apply ae_bin.
    + rewrite scrub_call by (cbn; lia). discriminate.
    + intros o' O' E. apply bname_inj in E. congruence.
Qed.

Lemma tree_unary (k : string) (f : tree -> tree) v t : In (k, f) [("binary_not", EBnot); ("not", ENot); ("missing", EIs false); ("exists", EIs true)]%string ->
  tree_of v = Some t -> v <> JNull -> tree_of (JDict [(u k, v)]) = Some (f t).
Proof.
  intros I T N. destruct I as [E|[E|[E|[E|[]]]]]; injection E as <- <-.
  - change (tree_of (JDict [(u "binary_not", v)])) with (match tree_of v with Some t => Some (EBnot t) | None => None end). now rewrite T.
  - change (tree_of (JDict [(u "not", v)])) with
      (match v with JNull | JDict [] => None | _ => match tree_of v with Some t => Some (ENot t) | None => None end end).
    destruct v as [| | | | | |[|kv d]]; try contradiction; try (now rewrite T); discriminate.
  - change (tree_of (JDict [(u "missing", v)])) with (match tree_of v with Some t => Some (EIs false t) | None => None end). now rewrite T.
  - change (tree_of (JDict [(u "exists", v)])) with (match tree_of v with Some t => Some (EIs true t) | None => None end). now rewrite T.
Qed.
Lemma expr_json x t : expr_of x = Some t -> scrub x <> ONone -> tree_of (json_of (scrub x)) = Some t /\ json_of (scrub x) <> JNull.
Proof. intros E N. split; [exact E|]. intros H. apply N. now apply json_null. Qed.

Section Main.
Variable float_text : pystr -> bool.
Notation act := (act_json float_text).

Lemma act2 k n x s : (5 <= k <= 30)%nat -> n <> u "neg" -> act k [Ok (TOp s n); Ok (TVal x)] = Ok (TVal (group (call n [x]))).
Proof.
  intros K N. unfold act_json. cbn [mapM bind]. destruct (Nat.leb_spec 5 k); [|lia]. destruct (Nat.leb_spec k 30); [|lia]. cbn [andb].
  unfold to_json_operator. change (parser_name (TVal x)) with ([] : pystr). change (seqb [] (u "cast")) with false. cbn [parser_name elem].
  destruct (seqb n (u "neg")) eqn:Q; [apply seqb_eq in Q; contradiction|reflexivity].
Qed.
Lemma act3 k a t b : (5 <= k <= 30)%nat ->
  act k [Ok (TVal a); Ok t; Ok (TVal b)] = Ok (TVal (group (binary a (match elem t with PText s => s | _ => parser_name t end) b))).
Proof.
  intros K. unfold act_json. cbn [mapM bind]. destruct (Nat.leb_spec 5 k); [|lia]. destruct (Nat.leb_spec k 30); [|lia]. reflexivity.
Qed.
Lemma act5 k a t b t' c : (5 <= k <= 30)%nat ->
  act k [Ok (TVal a); Ok t; Ok (TVal b); Ok t'; Ok (TVal c)] = Ok (TVal (group (call (parser_name t) [a; b; c]))).
Proof.
  intros K. unfold act_json. cbn [mapM bind]. destruct (Nat.leb_spec 5 k); [|lia]. destruct (Nat.leb_spec k 30); [|lia]. reflexivity.
Qed.

Lemma atom_good x t : atom_ok x t -> good x t /\ is_null_tok x = false.
Proof.
  intros (E & S & K). split.
  - apply (good_single _ _ t); auto; [destruct x; try exact I; contradiction|constructor|].
    intros o O. unfold operands_of. destruct x as [| |s|z|b0|op ar kw|d|l|n g a tk]; try contradiction; cbn [unwrap]; try reflexivity.
    + destruct ar; try reflexivity. destruct (seqb op (bname o)) eqn:Q; [|reflexivity]. apply seqb_eq in Q. subst op.
      exfalso. apply K. destruct o; try discriminate O; cbn; auto.
    + rewrite (K (bname o)); [reflexivity|]. destruct o; try discriminate O; cbn; auto.
  - destruct x; try contradiction; reflexivity.
Qed.

(** The parenthesised list of an IN. *)
Lemma member_expr p : member_ok p -> expr_of (fst p) = Some (snd p).
Proof.
  destruct p as [x t]. unfold member_ok. cbn [fst snd]. destruct x as [| |s|z| | |d| |]; try contradiction.
  - intros ->. reflexivity.
  - intros (_ & H). exact H.
  - intros ->. reflexivity.
  - destruct d as [|[k v] [|]]; try contradiction; destruct v; try contradiction. intros (-> & ->). reflexivity.
Qed.
Lemma members_expr l : Forall member_ok l -> mapO expr_of (map fst l) = Some (map snd l).
Proof. induction 1 as [|p l H _ IH]; cbn [map mapO]; [reflexivity|]. now rewrite (member_expr p H), IH. Qed.
Definition in_set (j : json) : option (list tree) :=
  match j with
  | JList l => if no_literal l then mapO tree_of l else None
  | JDict [(k', w)] => if keyed "literal" k' then match w with JList l => mapO lit_of l | _ => mapO lit_of [w] end else None
  | _ => None
  end.
Lemma tree_in (neg : bool) m s : tree_of (JDict [(u (if neg then "nin" else "in"), JList [m; s])]) =
  match tree_of m, in_set s with Some a, Some l => Some (EIn neg a l) | _, _ => None end.
Proof. destruct neg; reflexivity. Qed.
Lemma member_literal p y : member_ok p -> literal_of (fst p) = Some y -> lit_of (json_of (scrub y)) = Some (snd p).
Proof.
  destruct p as [x t]. unfold member_ok. cbn [fst snd]. destruct x as [| |s|z| | |d| |]; try contradiction; try discriminate.
  - intros -> H. injection H as <-. reflexivity.
  - destruct d as [|[k v] [|]]; try contradiction; destruct v; try contradiction. intros (-> & ->) H.
    injection H as <-. reflexivity.
Qed.
Lemma set_list l : Forall member_ok l -> (2 <= length l)%nat -> in_set (json_of (scrub (group (PList (map fst l))))) = Some (map snd l).
Proof.
  intros H L. rewrite scrub_group by exact I. rewrite scrub_list by (rewrite map_length; exact L). cbn [json_of in_set].
  replace (no_literal (map json_of (map scrub (map fst l)))) with true.
  - now rewrite mapO_expr, members_expr.
  - symmetry. unfold no_literal. apply negb_true_iff. clear L. induction H as [|p l H _ IH]; [reflexivity|].
    cbn [map existsb]. rewrite IH, orb_false_r. destruct p as [x t]. unfold member_ok in H. cbn [fst snd] in *.
    destruct x as [| |s|z| | |d| |]; try contradiction; try reflexivity.
    + destruct H as [H _]. cbn. now apply seqb_neq.
Qed.
Lemma set_good l : Forall member_ok l -> (2 <= length l)%nat ->
  in_set (json_of (scrub (to_tuple_call (map fst l)))) = Some (map snd l) /\ scrub (to_tuple_call (map fst l)) <> ONone.
Proof.
  intros H L.
  assert (T : exists y, to_tuple_call (map fst l) = group y /\
    (y = PList (map fst l) \/ forallb (fun x => match literal_of x with Some _ => true | None => false end) (map fst l) = true /\
     y = PDict [(u "literal", PList (map (fun x => match literal_of x with Some y => y | None => x end) (map fst l)))])).
  { unfold to_tuple_call. destruct l as [|p [|q l]]; cbn in L; try lia. cbn [map].
    destruct (forallb is_num _); [eauto|]. destruct (forallb _ _) eqn:E; eauto 6. }
  destruct T as (y & -> & [->|(F & ->)]).
  - split; [now apply set_list|]. rewrite scrub_group by exact I. rewrite scrub_list by (rewrite map_length; exact L). discriminate.
  - rewrite scrub_group by exact I.
    set (l' := map (fun x => match literal_of x with Some y => y | None => x end) (map fst l)) in *.
    assert (L' : (2 <= length l')%nat) by (unfold l'; rewrite !map_length; exact L).
    assert (E : scrub (PDict [(u "literal", PList l')]) = ODict [(u "literal", OList (map scrub l'))]).
    { change (scrub (PDict [(u "literal", PList l')])) with (ODict (drop_null [(u "literal", scrub (PList l'))])).
      rewrite scrub_list by exact L'. reflexivity. }
    rewrite E. split; [|discriminate]. cbn [json_of map fst snd in_set]. change (keyed "literal" (u "literal")) with true. cbn match.
    unfold l'. clear E L' L l'. induction H as [|p l H _ IH]; [reflexivity|].
    cbn [map forallb mapO] in *. apply andb_true_iff in F as [F1 F2]. destruct (literal_of (fst p)) as [y|] eqn:Y; [|discriminate].
    rewrite (member_literal p y H Y), IH by exact F2. reflexivity.
Qed.

Lemma null_good : good PNull ENull.
Proof. apply (good_single _ _ ENull); [exact I|discriminate|reflexivity|constructor|reflexivity]. Qed.
Lemma good_unary k f x t : In (k, f) [("binary_not", EBnot); ("not", ENot)]%string -> good x t ->
  (forall a b, assoc_eq a b -> assoc_eq (f a) (f b)) -> good (group (call (u k) [x])) (f t).
Proof.
  intros K (N & S & t' & E & A & _) C. pose proof (expr_json x t' E S) as [J NJ].
  apply (good_call _ _ _ (f t')).
  - unfold expr_of. rewrite scrub_call1 by (change (scrub (PList [x])) with (scrub x); exact S). change (scrub (PList [x])) with (scrub x).
    cbn [json_of map fst snd]. apply tree_unary; [|exact J|exact NJ]. destruct K as [K|[K|[]]]; rewrite <- K; cbn; auto.
  - now apply C.
  - rewrite scrub_call1 by (change (scrub (PList [x])) with (scrub x); exact S). discriminate.
  - intros o O. destruct K as [K|[K|[]]]; injection K as <- _; destruct o; discriminate.
Qed.
Lemma good_is (neg : bool) x t : good x t -> good (group (PCall (u (if neg then "exists" else "missing")) x [])) (EIs neg t).
Proof.
  intros (N & S & t' & E & A & _). pose proof (expr_json x t' E S) as [J NJ]. apply good_group.
  apply (good_single _ _ (EIs neg t')).
  - exact I.
  - rewrite scrub_one by exact S. discriminate.
  - unfold expr_of. rewrite scrub_one by exact S. cbn [json_of map fst snd]. apply tree_unary; [|exact J|exact NJ]. destruct neg; cbn; auto.
  - now apply ae_is.
  - intros o O. unfold operands_of. cbn [unwrap]. destruct x; try reflexivity.
    destruct (seqb _ (bname o)) eqn:Q; [|reflexivity]. apply seqb_eq in Q. destruct neg, o; discriminate.
Qed.
Lemma bin_level o alt : (5 <= fst (bin_tok o alt) <= 30)%nat.
Proof. destruct o, alt; cbv; lia. Qed.
Lemma bin_tok_ok o alt : exists t, snd (bin_tok o alt) = Ok t /\ canonical (match elem t with PText s => s | _ => parser_name t end) = bname o.
Proof. destruct o, alt; (eexists; split; [reflexivity|vm_compute; reflexivity]). Qed.

Lemma value_good s : source float_text s -> exists x, value act (code float_text s) = Ok (TVal x) /\ good x (mean s) /\ is_null_tok x = bare_null s.
Proof.
  induction s as [x t| |s IH|z|s IH|s IH|o alt a IHa b IHb|n m IH l|n a IHa b IHb c IHc|n s IH]; cbn [source code mean bare_null]; intros H.
  - exists x. split; [reflexivity|]. now apply atom_good.
  - exists PNull. split; [reflexivity|]. split; [apply null_good|reflexivity].
  - destruct H as [R H]. destruct (IH H) as (x & V & G & _). exists (group x). split; [|split; [now apply good_group|reflexivity]].
    cbn [value]. unfold read_tokens. rewrite (make_tree_ok act sql_levels sql_levels_ok _ R), V. reflexivity.
  - exists (group (PNum (- z))). split; [reflexivity|]. split; [|reflexivity]. apply good_group.
    apply (good_single _ _ (ENeg (EInt z))); [exact I|discriminate| |constructor|reflexivity].
    unfold expr_of. cbn. unfold int_of. destruct (Z.ltb_spec (- z) 0); [|lia]. now rewrite Z.opp_involutive.
  - destruct (IH H) as (x & V & G & _). eexists. cbn [value]. rewrite V. split; [apply act2; [cbv; lia|discriminate]|]. split; [|reflexivity].
    apply (good_unary "binary_not" EBnot); [cbn; auto|exact G|intros; now constructor].
  - destruct (IH H) as (x & V & G & _). eexists. cbn [value]. rewrite V. unfold word. split; [apply act2; [cbv; lia|discriminate]|]. split; [|reflexivity].
    apply (good_unary "not" ENot); [cbn; auto|exact G|intros; now constructor].
  - destruct H as (NN & HA & HB). destruct (IHa HA) as (x & V & G & Q), (IHb HB) as (y & V' & G' & Q').
    destruct (bin_tok_ok o alt) as (t & T & W). eexists. cbn [value]. rewrite V, V', T. split; [apply act3; apply bin_level|]. split; [|reflexivity].
    apply binary_good; auto. intros O. rewrite Q, Q'. auto.
  - destruct H as (HM & L & F). destruct (IH HM) as (x & V & G & Q). destruct (set_good l F L) as [S NS].
    assert (X : forall neg : bool, good (group (call (u (if neg then "nin" else "in")) [x; to_tuple_call (map fst l)])) (EIn neg (mean m) (map snd l))).
    { intros neg. destruct G as (N & SX & t' & E & A & _). apply (good_call _ _ _ (EIn neg t' (map snd l))).
      - unfold expr_of. rewrite scrub_call by (cbn; lia). cbn [json_of map fst snd]. rewrite tree_in.
        unfold expr_of in E. now rewrite E, S.
      - now apply ae_in.
      - rewrite scrub_call by (cbn; lia). discriminate.
      - intros o O. destruct neg, o; discriminate. }
    destruct n; cbn [value]; rewrite V; unfold word, words; (eexists; split; [apply act3; cbv; lia|]; split; [|reflexivity]).
    + exact (X true).
    + exact (X false).
  - destruct H as (HA & HB & HC). destruct (IHa HA) as (x & V & G & Q), (IHb HB) as (y & V' & G' & Q'), (IHc HC) as (w & V'' & G'' & Q'').
    assert (X : forall neg : bool, good (group (call (u (if neg then "not_between" else "between")) [x; y; w])) (EBetween neg (mean a) (mean b) (mean c))).
    { intros neg. destruct G as (N & SX & t' & E & A & _), G' as (N' & SX' & t2 & E' & A' & _), G'' as (N'' & SX'' & t3 & E'' & A'' & _).
      apply (good_call _ _ _ (EBetween neg t' t2 t3)).
      - unfold expr_of. rewrite scrub_call by (cbn; lia). cbn [json_of map fst snd].
        assert (T : forall l, tree_of (JDict [(u (if neg then "not_between" else "between"), JList l)]) =
          match mapO tree_of l with Some [a; b; c] => Some (EBetween neg a b c) | _ => None end) by (destruct neg; reflexivity).
        rewrite T. cbn [mapO]. unfold expr_of in E, E', E''. now rewrite E, E', E''.
      - now apply ae_between.
      - rewrite scrub_call by (cbn; lia). discriminate.
      - intros o O. destruct neg, o; discriminate. }
    destruct n; cbn [value]; rewrite V, V', V''; unfold word, words; (eexists; split; [apply act5; cbv; lia|]; split; [|reflexivity]).
    + exact (X true).
    + exact (X false).
  - destruct (IH H) as (x & V & G & _).
    destruct n; cbn [value]; rewrite V; unfold word, words; (eexists; split; [apply act3; cbv; lia|]; split; [|reflexivity]).
    + exact (good_is true x (mean s) G).
    + exact (good_is false x (mean s) G).
Qed.

Lemma read_ok s : grouped float_text s -> exists x t, read_tokens float_text (tokens_of float_text s) = Ok (TVal x) /\
  expr_of x = Some t /\ assoc_eq t (mean s).
Proof.
  intros (S & R). destruct (value_good s S) as (x & V & (_ & _ & t & E & A & _) & _). exists x, t. split; [|now split].
  unfold read_tokens, tokens_of. rewrite (make_tree_ok act sql_levels sql_levels_ok _ R), V. reflexivity.
Qed.
End Main.

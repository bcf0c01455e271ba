(** The grammar of CREATE TABLE on the parts of a text. *)
From Coq Require Import String Ascii List Arith NArith ZArith QArith Bool Lia ZifyBool ZifyNat ZifyN.
From Verif Require Import Base BaseProof CryptoModel JsonModel RewriteModel SqlSpec EncSpec StmtSpec CreateSpec ScrubModel InfixModel OperModel OperSpec ValuesModel TextSpec
  LitModel LitSpec GramModel GramSpec GramSimProof GramTextProof GramLexProof GramStmtProof DdlSpec.
Import ListNotations.

(** Every element of a list. *)
Ltac each H tac := lazymatch type of H with False => destruct H | _ => destruct H as [<-|H]; [tac|each H tac] end.
(** ** Words *)
Lemma language_in w : In w language -> in_language w = true.
Proof. intros H. unfold in_language. apply existsb_exists. exists w. split; [exact H|now apply seqb_eq]. Qed.
Lemma kw_this w x r : word_lex w x -> kw lx w (x :: r) = Ok (Some (tt, r)).
Proof.
  intros [|f N E]; [apply kw_here|]. unfold kw. cbn [t_kw lx lx_kw kw_is]. destruct (in_language (u w)) eqn:L; [apply in_language_ok in L; contradiction|].
  rewrite E. now rewrite (proj2 (seqb_eq _ _) eq_refl).
Qed.
Lemma seqb_false a b : a <> b -> seqb a b = false.
Proof. intros H. destruct (seqb a b) eqn:E; [|reflexivity]. apply seqb_eq in E. contradiction. Qed.
Lemma kw_other w w' x r : word_lex w' x -> u w <> u w' -> kw lx w (x :: r) = Ok None.
Proof.
  intros [|f N E] D; unfold kw; cbn [t_kw lx lx_kw kw_is K]; [now rewrite seqb_false|].
  destruct (in_language (u w)); [reflexivity|]. rewrite E. now rewrite seqb_false.
Qed.
Lemma kws_first w l ls : lx_kw w ls = Ok None -> lx_kws (w :: l) ls = Ok None.
Proof. intros H. cbn [lx_kws]. destruct l; [exact H|]. now rewrite H. Qed.

Section Lex.
Variables (ft : pystr -> bool) (k : nat).
Local Open Scope string_scope.
Local Open Scope list_scope.
Notation P := (parser (list lexeme)).

(** ** What may follow *)
Inductive next : list lexeme -> Prop :=
| nx_comma r : next (Y "," :: r)
| nx_close r : next (Y ")" :: r)
| nx_not r : next (K "not" :: K "null" :: r)
| nx_kw w r : In w ["null"; "unique"; "primary"; "collate"] -> next (K w :: r)
| nx_word w x r : In w ["auto_increment"; "comment"; "default"] -> word_lex w x -> next (x :: r).
Definition no_collate (r : list lexeme) : Prop := forall r', r <> K "collate" :: r'.
Lemma next_stop r : next r -> no_collate r -> stop r.
Proof.
  intros [r0|r0|r0|w r0 W|w x r0 W X] NC.
  - apply stop_comma.
  - apply stop_close.
  - repeat split.
  - cbn [In] in W. each W ltac:(first [now destruct (NC r0)|repeat split]).
  - cbn [In] in W. destruct X as [|f N E]; each W ltac:(repeat split).
Qed.
Lemma next_kw w r : next r -> In w ["unsigned"; "with"; "precision"] -> kw lx w r = Ok None.
Proof.
  intros [r0|r0|r0|w0 r0 W|w0 x r0 W X] H.
  1-3: cbn [In] in H; each H ltac:(reflexivity).
  - cbn [In] in H, W. each W ltac:(idtac; each H ltac:(reflexivity)).
  - apply (kw_other w w0); [exact X|]. cbn [In] in H, W. each W ltac:(idtac; each H ltac:(discriminate)).
Qed.
Lemma word_lb w x r : word_lex w x -> LB lx (x :: r) = Ok None.
Proof. intros []; reflexivity. Qed.
Lemma word_string w x r : word_lex w x -> t_string lx (x :: r) = Ok None.
Proof. intros []; reflexivity. Qed.
Lemma next_lb r : next r -> LB lx r = Ok None.
Proof. intros []; try reflexivity. now apply (word_lb w). Qed.
Lemma next_string r : next r -> t_string lx r = Ok None.
Proof. intros []; try reflexivity. now apply (word_string w). Qed.

(** ** Lists in parentheses *)
Definition closing (r : list lexeme) : Prop := exists r', r = Y "," :: r' \/ r = Y ")" :: r'.
Lemma closing_next r : closing r -> next r.
Proof. intros (r' & [->| ->]); constructor. Qed.
Lemma inner_list {A} (p : P A) (f : A -> lexeme) l r : (forall a r, p (f a :: r) = Ok (Some (a, r))) -> l <> [] -> (length (list_lex (map f l) ++ r) < k)%nat ->
  GramModel.seq (LB lx) (fun _ => GramModel.seq (list_of k p (comma lx)) (fun l => GramModel.seq (RB lx) (fun _ => ret l))) (list_lex (map f l) ++ r) = Ok (Some (l, r)).
Proof.
  intros H NE L. unfold list_lex in *. cbn [app length] in *. rewrite <- app_assoc in *. cbn [app] in *. rewrite map_map in *.
  rewrite (seq_some _ _ _ tt (separated (map (fun x => [f x]) l) ++ Y ")" :: r)) by reflexivity.
  rewrite (seq_some _ _ _ l (Y ")" :: r)); [reflexivity|].
  apply (list_if k (fun _ => True)); try assumption; try exact I; [intros; exact I| |reflexivity|lia]. clear NE L.
  induction l as [|c l IH]; cbn [map]; constructor; [|exact IH]. intros r0 _ _. apply H.
Qed.

(** ** Types *)
Definition behind_ok (b : behind) (l : list Z) : Prop :=
  match b with Nothing | Format => l = [] | Size => (length l <= 1)%nat | Sizes => True end.
Lemma sizes_ok b l r : behind_ok b l -> LB lx r = Ok None -> t_string lx r = Ok None -> (length (sizes_lex l ++ r) < k)%nat ->
  sizes_of lx k b (sizes_lex l ++ r) = Ok (Some (l, r)).
Proof.
  intros B LBr ST L. destruct b; cbn [behind_ok] in B; cbn [sizes_of].
  - subst l. reflexivity.
  - destruct l as [|z [|z' l]]; [|reflexivity|cbn in B; lia]. cbn [sizes_lex app]. rewrite (seq_some _ _ _ None r); [reflexivity|]. apply option_none. now apply seq_none.
  - destruct l as [|z l].
    + cbn [sizes_lex app]. rewrite (seq_some _ _ _ None r); [reflexivity|]. apply option_none. now apply seq_none.
    + rewrite (seq_some _ _ _ (Some (z :: l)) r); [reflexivity|]. apply option_some. apply (inner_list (t_int lx) LNum); [reflexivity|discriminate|exact L].
  - subst l. cbn [sizes_lex app]. rewrite (seq_some _ _ _ tt r); [reflexivity|]. now apply absent_none.
Qed.
Definition uns_lex (un : bool) (ls : list lexeme) : Prop := if un then exists y, word_lex "unsigned" y /\ ls = [y] else ls = [].
Lemma simple_ok w b un l uns x lu r : behind_ok b l -> (uns = true -> un = true) -> word_lex w x -> uns_lex uns lu -> next r ->
  (length (x :: sizes_lex l ++ lu ++ r) < k)%nat ->
  simple_type lx k ([w], b, un) (x :: sizes_lex l ++ lu ++ r) = Ok (Some (type_call w l uns, r)).
Proof.
  intros B U W LU NX L. unfold simple_type. rewrite (seq_some _ _ _ tt (sizes_lex l ++ lu ++ r)) by (now apply (kw_this w)). cbn [length] in L.
  rewrite (seq_some _ _ _ l (lu ++ r)).
  2: { apply sizes_ok; [exact B| | |lia]; (destruct uns; cbn [uns_lex] in LU; [destruct LU as (y & Y0 & ->)|subst lu]; cbn [app]).
       - now apply (word_lb "unsigned").
       - now apply next_lb.
       - now apply (word_string "unsigned").
       - now apply next_string. }
  rewrite (seq_some _ _ _ (if uns then Some tt else None) r).
  - destruct uns; reflexivity.
  - destruct uns; cbn [uns_lex] in LU.
    + rewrite (U eq_refl). destruct LU as (y & Y0 & ->). cbn [app]. apply option_some. now apply kw_this.
    + subst lu. cbn [app]. destruct un; [|reflexivity]. apply option_none. apply next_kw; [exact NX|now left].
Qed.
Fixpoint type_entry (l : list (list string * behind * bool)) (w : string) : option (behind * bool) :=
  match l with
  | [] => None
  | (a :: ws, b, un) :: l =>
    if seqb (u a) (u w) then match ws with [] => Some (b, un) | v :: _ => if String.eqb v "with" || String.eqb v "precision" then type_entry l w else None end
    else type_entry l w
  | ([], _, _) :: _ => None
  end.
Lemma u_inj a b : u a = u b -> a = b.
Proof.
  revert b. induction a as [|c a IH]; intros [|d b] H; cbn in H; try discriminate; [reflexivity|]. injection H as H1 H2. f_equal; [|now apply IH].
  rewrite <- (ascii_N_embedding c), <- (ascii_N_embedding d). now f_equal.
Qed.
Lemma types_ok w b un l uns x lu r : behind_ok b l -> (uns = true -> un = true) -> word_lex w x -> uns_lex uns lu -> next r ->
  (length (x :: sizes_lex l ++ lu ++ r) < k)%nat -> forall tb, type_entry tb w = Some (b, un) ->
  first (map (simple_type lx k) tb) (x :: sizes_lex l ++ lu ++ r) = Ok (Some (type_call w l uns, r)).
Proof.
  intros B U W LU NX L. assert (NV : forall v, In v ["with"; "precision"] -> kw lx v (sizes_lex l ++ lu ++ r) = Ok None).
  { intros v V. destruct l as [|z l]; [|cbn [In] in V; destruct V as [<-|[<-|[]]]; reflexivity]. cbn [sizes_lex app].
    destruct uns; cbn [uns_lex] in LU; [destruct LU as (y & Y0 & ->)|subst lu]; cbn [app].
    - apply (kw_other v "unsigned"); [exact Y0|]. cbn [In] in V; destruct V as [<-|[<-|[]]]; discriminate.
    - apply next_kw; [exact NX|now right]. }
  induction tb as [|[[ws b'] un'] tb IH]; cbn [type_entry]; [discriminate|]. destruct ws as [|a ws]; [discriminate|]. cbn [map first].
  destruct (seqb (u a) (u w)) eqn:E.
  - apply seqb_eq in E. apply u_inj in E. subst a. destruct ws as [|v ws].
    + intros [= -> ->]. apply alt_some. now apply simple_ok.
    + destruct (String.eqb v "with" || String.eqb v "precision")%bool eqn:V; [|discriminate]. intros T. rewrite alt_none; [now apply IH|].
      unfold simple_type. apply seq_none. unfold kws. cbn [map]. change (lx_kws (u w :: u v :: map u ws) (x :: sizes_lex l ++ lu ++ r) = Ok None).
      cbn [lx_kws]. pose proof (kw_this w x (sizes_lex l ++ lu ++ r) W) as KW. unfold kw in KW. cbn [t_kw lx] in KW. rewrite KW.
      change (lx_kws (u v :: map u ws) (sizes_lex l ++ lu ++ r) = Ok None). apply kws_first. apply NV.
      apply orb_true_iff in V. destruct V as [V|V]; apply String.eqb_eq in V; subst v; [now left|right; now left].
  - intros T. rewrite alt_none; [now apply IH|]. unfold simple_type. apply seq_none. apply kws_first.
    apply (kw_other a w); [exact W|]. intros X. rewrite X, (proj2 (seqb_eq _ _) eq_refl) in E. discriminate.
Qed.
Lemma entry_ok c : good_type c -> exists b un, type_entry simple_types (ty_word c) = Some (b, un) /\ behind_ok b (ty_sizes c) /\ (ty_unsigned c = true -> un = true) /\
  (forall x, word_lex (ty_word c) x -> forall r, kw_of lx ["struct"; "row"; "array"; "map"] (x :: r) = Ok None).
Proof.
  intros (A & B). destruct c as [w l uns]. cbn [ty_word ty_sizes ty_unsigned] in *.
  assert (KO : (forall v, In v ["struct"; "row"; "array"; "map"] -> u v <> u w) -> forall x, word_lex w x -> forall r, kw_of lx ["struct"; "row"; "array"; "map"] (x :: r) = Ok None).
  { intros H x X r. unfold kw_of. cbn [map first]. do 4 (rewrite alt_none by (apply (kw_other _ w); [exact X|apply H; cbn; tauto])). reflexivity. }
  destruct A as [[A L]|[A|[A ->]]]; cbn [In sized_types scaled_types plain_types] in A;
    each A ltac:(idtac; eexists _, _; split; [reflexivity|]; split; [first [exact L|exact I|reflexivity]|]; split;
      [first [reflexivity | intros U; specialize (B U); cbn in B; exfalso; repeat (destruct B as [B|B]; [discriminate B|]); exact B]
      |apply KO; intros v V; cbn [In] in V; each V ltac:(idtac; discriminate)]).
Qed.
Definition type_pv (c : ctype) : pv := type_call (ty_word c) (ty_sizes c) (ty_unsigned c).
Lemma type_ok c ls r : good_type c -> type_lex c ls -> next r -> (length (ls ++ r) < k)%nat -> column_type lx k (ls ++ r) = Ok (Some (type_pv c, r)).
Proof.
  intros G T NX L. destruct (entry_ok c G) as (b & un & E & B & U & KO).
  assert (X : exists x lu, ls = x :: sizes_lex (ty_sizes c) ++ lu /\ word_lex (ty_word c) x /\ uns_lex (ty_unsigned c) lu).
  { destruct T as [w l x W|w l x y W Y0]; [exists x, []|exists x, [y]]; cbn [ty_sizes ty_word ty_unsigned uns_lex].
    - split; [now rewrite app_nil_r|now split].
    - split; [reflexivity|]. split; [exact W|]. now exists y. }
  destruct X as (x & lu & -> & W & LU). cbn [app] in *. rewrite <- app_assoc in *. unfold column_type. rewrite alt_none.
  - now apply (types_ok _ b un).
  - unfold unmodelled. now rewrite seq_none by (now apply KO).
Qed.

(** ** Options of columns *)
Definition dflt_pv (d : dflt) : pv := match d with DNull => PNull | DConst c => const_pv c | DName v => PText v end.
Definition opt_pv (o : copt) : pv :=
  match o with
  | NotNull => flag_tok "nullable" false | Nullable => flag_tok "nullable" true | Unique => flag_tok "unique" true
  | AutoIncrement => flag_tok "auto_increment" true | PrimaryKey => flag_tok "primary_key" true
  | Comment s => literal_tok "comment" s | Collate v => named_tok "collate" (PText v) | Default d => named_tok "default" (dflt_pv d)
  end.
Lemma null_reads n : (0 < n)%nat -> reads_if k stop (expression lx ft k n) PNull [K "null"].
Proof. intros N0 r ST L. destruct n as [|n]; [lia|]. apply expr_atom; [|exact ST|exact L]. apply operand_ok. constructor. Qed.
Lemma dflt_reads d n r : (0 < n)%nat -> stop r -> (length (dflt_lex d ++ r) < k)%nat -> expression lx ft k n (dflt_lex d ++ r) = Ok (Some (dflt_pv d, r)).
Proof.
  intros N0 ST L. destruct d as [|c|v]; cbn [dflt_lex dflt_pv] in *.
  - now apply null_reads.
  - now apply const_reads.
  - now apply name_reads.
Qed.
Lemma seq_this {A} w x r (p : P A) : word_lex w x -> GramModel.seq (kw lx w) (fun _ => p) (x :: r) = p r.
Proof. intros W. exact (seq_some _ _ _ tt r (kw_this w x r W)). Qed.
Lemma as_other {A} w w' (a : A) x r : word_lex w' x -> u w <> u w' -> as_ (kw lx w) a (x :: r) = Ok None.
Proof. intros W D. unfold as_, GramModel.act. now rewrite (kw_other w w'). Qed.
Local Ltac skip_word w X := rewrite alt_none by (first [apply seq_none, (kw_other _ w); [exact X|discriminate] | apply (as_other _ w); [exact X|discriminate] | unfold unmodelled; first [rewrite seq_none by (apply (kw_other _ w); [exact X|discriminate]) | rewrite (kw_other _ w) by (first [exact X|discriminate])]; reflexivity ]).
Lemma option_ok o lo r n : (0 < n)%nat -> opt_lex o lo -> (forall d, o = Default d -> stop r) -> (length (lo ++ r) < k)%nat ->
  column_option lx k (expression lx ft k n) (lo ++ r) = Ok (Some (opt_pv o, r)).
Proof.
  intros N0 O NX L. unfold column_option. cbn [first].
  destruct O as [| | |x X| |x s X|v|x d X]; cbn [app opt_pv].
  - apply alt_some. reflexivity.
  - do 1 rewrite alt_none by reflexivity. apply alt_some. reflexivity.
  - do 2 rewrite alt_none by reflexivity. apply alt_some. reflexivity.
  - do 3 skip_word "auto_increment" X. apply alt_some. apply (act_some _ _ _ tt r); [now apply kw_this|reflexivity].
  - do 6 rewrite alt_none by reflexivity. apply alt_some. reflexivity.
  - do 4 skip_word "comment" X. apply alt_some. rewrite (seq_this "comment") by exact X. reflexivity.
  - do 5 rewrite alt_none by reflexivity. apply alt_some. reflexivity.
  - do 7 skip_word "default" X. skip_word "default" X. unfold references. skip_word "default" X. skip_word "default" X.
    apply alt_some. rewrite (seq_this "default") by exact X. rewrite (seq_some _ _ _ (dflt_pv d) r); [reflexivity|]. apply dflt_reads; [exact N0|now apply (NX d)|]. cbn [app length] in L. lia.
Qed.
Lemma option_next o lo r : opt_lex o lo -> next (lo ++ r).
Proof.
  intros [| | |x X| |x s X|v|x d X]; cbn [app]; try (now constructor); try (apply nx_kw; cbn; tauto);
  [apply (nx_word "auto_increment")|apply (nx_word "comment")|apply (nx_word "default")]; cbn; tauto.
Qed.
Lemma closing_option n r : closing r -> column_option lx k (expression lx ft k n) r = Ok None.
Proof. intros (r' & [->| ->]); reflexivity. Qed.
Lemma options_next os lo r : Forall2 opt_lex os lo -> closing r -> next (concat lo ++ r).
Proof. intros [|o l os' lo' O F] C; [now apply closing_next|]. cbn [concat]. rewrite <- app_assoc. now apply (option_next o). Qed.
Lemma option_length o lo : opt_lex o lo -> (0 < length lo)%nat.
Proof. intros []; cbn; lia. Qed.
Lemma options_ok n os lo : (0 < n)%nat -> Forall2 opt_lex os lo -> apart os -> forall r j, closing r -> (length (concat lo ++ r) < k)%nat -> (length (concat lo) < j)%nat ->
  many j (column_option lx k (expression lx ft k n)) (concat lo ++ r) = Ok (Some (map opt_pv os, r)).
Proof.
  intros N0. induction 1 as [|o l os lo O F IH]; intros AP r j C L J; (destruct j as [|j]; [lia|]); cbn [concat many map] in *.
  - cbn [app]. now rewrite closing_option.
  - rewrite <- app_assoc in *. rewrite (option_ok o l (concat lo ++ r)); [|exact N0|exact O| |exact L].
    2: { intros d ->. apply next_stop; [now apply (options_next os)|]. intros r' E. destruct F as [|o' l' os lo O' F].
         - cbn [concat app] in E. destruct C as (r1 & [->| ->]); discriminate E.
         - cbn [apart concat] in *. destruct O' as [| | |x X| |x s X|v|x d' X]; cbn [app] in E; try discriminate E; try contradiction; (destruct X; [|discriminate E]; injection E as E; vm_compute in E; discriminate E). }
    assert (AP' : apart os) by (destruct o; cbn [apart] in AP; try exact AP; destruct os as [|[]]; try exact AP; try exact I; contradiction).
    pose proof (option_length o l O). rewrite !app_length in *. rewrite (IH AP'); [reflexivity|exact C|rewrite app_length; lia|lia].
Qed.

(** ** Columns *)
Definition column_pv (c : column) : pv :=
  PRes (u "columns") true false (named_tok "name" (PText (cl_name c)) :: PRes (u "type") false false [type_pv (cl_type c)] :: map opt_pv (cl_opts c)).
Lemma column_ok n c ls : (0 < n)%nat -> good_column c -> column_lex c ls -> reads_if k closing (table_element lx k (expression lx ft k n)) (column_pv c) ls.
Proof.
  intros N0 (GT & _ & AP) C r CL L. destruct C as [v ty os lt lo T F]. cbn [cl_type cl_opts cl_name app] in *. unfold table_element. apply alt_some. unfold column_definition.
  rewrite <- app_assoc in *. rewrite (seq_some _ _ _ v (lt ++ concat lo ++ r)) by reflexivity. cbn [length] in L.
  rewrite (seq_some _ _ _ (type_pv ty) (concat lo ++ r)).
  2: { apply alt_some. apply type_ok; [exact GT|exact T|now apply (options_next os)|lia]. }
  rewrite (seq_some _ _ _ (map opt_pv os) r); [reflexivity|]. rewrite app_length in L. apply options_ok; try assumption; rewrite ?app_length in *; lia.
Qed.

(** ** Constraints *)
Definition index_pv (cs : list pystr) : list pv := map (fun c => named_tok "columns" (PText c)) cs ++ [PRes (u "table_constraint_options") false false []].
Definition constr_body (c : constr) : pv :=
  match c with
  | Primary _ cs => PRes (u "primary_key") false false (index_pv cs)
  | Foreign _ cs t rs => PRes (u "foreign_key") false false (PRes [] true false [] :: map (fun c => named_tok "columns" (PText c)) cs ++
      [PRes (u "references") false false [named_tok "table" (PText t); PRes (u "columns") false false (map PText rs)]])
  | Index _ un name cs => PRes (u "index") false false ((if un then [flag_tok "unique" true] else []) ++ named_opt "name" name ++ index_pv cs)
  end.
Definition constr_name (c : constr) : option pystr := match c with Primary o _ => o | Foreign o _ _ _ => o | Index o _ _ _ => o end.
Definition constr_pv (c : constr) : pv := PRes (u "constraint") false false (named_opt "name" (constr_name c) ++ [constr_body c]).
Lemma names_here cs r : cs <> [] -> (length (names_lex cs ++ r) < k)%nat -> index_columns lx k (names_lex cs ++ r) = Ok (Some (map (fun c => named_tok "columns" (PText c)) cs, r)).
Proof.
  intros NE L. unfold index_columns, names_lex. rewrite (seq_some _ _ _ tt (list_lex (map LName cs) ++ r)) by reflexivity.
  pose proof (inner_list (var_name lx) LName cs r (fun _ _ => eq_refl) NE L) as H. unfold GramModel.seq in *. destruct (LB lx (list_lex (map LName cs) ++ r)) as [[[[] s]|]|]; try discriminate H.
  destruct (list_of k (var_name lx) (comma lx) s) as [[[l s']|]|]; try discriminate H. destruct (RB lx s') as [[[[] s'']|]|]; try discriminate H. unfold ret in *. injection H as -> ->. reflexivity.
Qed.
Lemma no_options r : (0 < k)%nat -> closing r -> index_options lx k r = Ok (Some (PRes (u "table_constraint_options") false false [], r)).
Proof. intros K0 (r' & [->| ->]); unfold index_options; (destruct k as [|k']; [lia|]); reflexivity. Qed.
Lemma names_head cs r : exists r', names_lex cs ++ r = Y "(" :: r'.
Proof. unfold names_lex, list_lex. cbn [app]. eauto. Qed.
Definition constr_part (c : constr) (ls : list lexeme) : Prop := constr_lex c (con_name_lex (constr_name c) ++ ls).
Lemma references_ok t rs r : rs <> [] -> (length (names_lex rs ++ r) < k)%nat ->
  references lx k (K "references" :: LName t :: names_lex rs ++ r) =
  Ok (Some (PRes (u "references") false false [named_tok "table" (PText t); PRes (u "columns") false false (map PText rs)], r)).
Proof.
  intros NE L. unfold references. rewrite (seq_some _ _ _ tt (LName t :: names_lex rs ++ r)) by reflexivity. rewrite (seq_some _ _ _ t (names_lex rs ++ r)) by reflexivity.
  pose proof (inner_list (var_name lx) LName rs r (fun _ _ => eq_refl) NE L) as H. unfold names_lex. unfold GramModel.seq in *. destruct (LB lx (list_lex (map LName rs) ++ r)) as [[[[] s]|]|]; try discriminate H.
  destruct (list_of k (var_name lx) (comma lx) s) as [[[l s']|]|]; try discriminate H. destruct (RB lx s') as [[[[] s'']|]|]; try discriminate H. unfold ret in *. injection H as -> ->. reflexivity.
Qed.
Lemma primary_ok cs r : cs <> [] -> closing r -> (length (names_lex cs ++ r) < k)%nat ->
  constraint_of lx k (K "primary" :: K "key" :: names_lex cs ++ r) = Ok (Some (PRes (u "primary_key") false false (index_pv cs), r)).
Proof.
  intros NE C L. unfold constraint_of. cbn [first]. apply alt_some. do 1 rewrite (seq_some _ _ _ tt (K "key" :: names_lex cs ++ r)) by reflexivity.
  rewrite (seq_some _ _ _ tt (names_lex cs ++ r)) by reflexivity. rewrite (seq_some _ _ _ _ _ (names_here cs r NE L)).
  rewrite (seq_some _ _ _ _ _ (no_options r ltac:(lia) C)). reflexivity.
Qed.
Lemma foreign_ok cs t rs r : cs <> [] -> rs <> [] -> closing r -> (length (names_lex cs ++ K "references" :: LName t :: names_lex rs ++ r) < k)%nat ->
  constraint_of lx k (K "foreign" :: K "key" :: names_lex cs ++ K "references" :: LName t :: names_lex rs ++ r) = Ok (Some (constr_body (Foreign None cs t rs), r)).
Proof.
  intros NE NR C L. unfold constraint_of. cbn [first]. do 3 rewrite alt_none by reflexivity. apply alt_some.
  set (r1 := K "references" :: LName t :: names_lex rs ++ r) in *. rewrite (seq_some _ _ _ tt (names_lex cs ++ r1)) by reflexivity.
  rewrite (seq_some _ _ _ (Some (map (fun c => named_tok "columns" (PText c)) cs ++ [PRes (u "references") false false [named_tok "table" (PText t); PRes (u "columns") false false (map PText rs)]])) r); [reflexivity|].
  apply option_some. rewrite (seq_some _ _ _ None (names_lex cs ++ r1)) by (destruct (names_head cs r1) as (r' & ->); reflexivity).
  rewrite (seq_some _ _ _ _ _ (names_here cs r1 NE L)). subst r1.
  rewrite (seq_some _ _ _ _ _ (references_ok t rs r NR ltac:(rewrite app_length in L; cbn [length] in L; lia))).
  rewrite (seq_some _ _ _ None r) by (destruct C as (r' & [->| ->]); reflexivity). reflexivity.
Qed.
Lemma index_ok (un : bool) w name cs r : w = "key" \/ w = "index" -> cs <> [] -> closing r -> (length (names_lex cs ++ r) < k)%nat ->
  constraint_of lx k ((if un then [K "unique"] else []) ++ K w :: match name with Some v => [LName v] | None => [] end ++ names_lex cs ++ r) = Ok (Some (constr_body (Index None un name cs), r)).
Proof.
  intros W NE C L. unfold constraint_of. cbn [first]. rewrite alt_none by (destruct un, W as [->| ->]; reflexivity). apply alt_some.
  set (r1 := names_lex cs ++ r) in *. set (r2 := match name with Some v => [LName v] | None => [] end ++ r1).
  rewrite (seq_some _ _ _ (if un then Some tt else None) (K w :: r2)) by (destruct un, W as [->| ->]; reflexivity).
  rewrite (seq_some _ _ _ (Some tt) r2) by (destruct W as [->| ->]; reflexivity).
  rewrite (seq_some _ _ _ name r1) by (subst r2; destruct name; [reflexivity|]; destruct (names_head cs r) as (r' & E); subst r1; rewrite E; reflexivity).
  subst r1. rewrite (seq_some _ _ _ _ _ (names_here cs r NE L)). rewrite (seq_some _ _ _ _ _ (no_options r ltac:(lia) C)). destruct un, name; reflexivity.
Qed.
Lemma constr_ok n c ls : con_columns c -> constr_lex c ls -> reads_if k closing (table_element lx k (expression lx ft k n)) (constr_pv c) ls.
Proof.
  intros G C r CL L.
  assert (H : forall o body ls0, (forall r0, column_definition lx k (expression lx ft k n) (ls0 ++ r0) = Ok None /\ kw lx "constraint" (ls0 ++ r0) = Ok None) ->
    constraint_of lx k (ls0 ++ r) = Ok (Some (body, r)) ->
    table_element lx k (expression lx ft k n) ((con_name_lex o ++ ls0) ++ r) = Ok (Some (PRes (u "constraint") false false (named_opt "name" o ++ [body]), r))).
  { intros o body ls0 H E. rewrite <- app_assoc. unfold table_element. rewrite alt_none by (destruct o; [reflexivity|apply H]). unfold table_constraint.
    rewrite (seq_some _ _ _ o (ls0 ++ r)).
    - now rewrite (seq_some _ _ _ _ _ E).
    - destruct o as [v|]; cbn [con_name_lex app]; [reflexivity|]. apply option_none. apply seq_none. apply H. }
  destruct C as [o cs|o cs t rs|o un w name cs W]; cbn [con_columns] in G; (apply H; clear H; [intros r0; split; try reflexivity|]).
  - cbn [app]. apply primary_ok; [exact G|exact CL|]. rewrite !app_length in L. cbn [length] in L. rewrite app_length. lia.
  - cbn [app]. rewrite <- app_assoc. cbn [app]. destruct G as (G1 & G2). apply foreign_ok; [exact G1|exact G2|exact CL|].
    rewrite !app_length in L. cbn [length] in L. rewrite !app_length in L. cbn [length] in L. rewrite app_length. cbn [length]. rewrite app_length. lia.
  - destruct un, W as [->| ->]; reflexivity.
  - destruct un, W as [->| ->]; reflexivity.
  - rewrite <- app_assoc. cbn [app]. rewrite <- app_assoc. apply index_ok; [exact W|exact G|exact CL|]. rewrite !app_length in L. cbn [length] in L. rewrite !app_length in L. rewrite app_length. lia.
Qed.

(** ** Options of the table *)
Definition topt_pv (o : topt) : pv :=
  match o with
  | Engine v => named_tok "engine" (PText v) | TCollate v => named_tok "collate" (PText v) | TAuto z => named_tok "auto_increment" (PNum z)
  | TComment s => literal_tok "comment" s | Charset v => named_tok "default_charset" (PText v)
  end.
Lemma topt_ok o lo r : topt_lex o lo -> table_option lx (lo ++ r) = Ok (Some (topt_pv o, r)).
Proof.
  intros [x v X|v|x z X|x s X|x y v X Y0]; unfold table_option; cbn [first app topt_pv].
  - apply alt_some. rewrite (seq_this "engine") by exact X. reflexivity.
  - rewrite alt_none by reflexivity. apply alt_some. reflexivity.
  - do 2 skip_word "auto_increment" X. apply alt_some. rewrite (seq_this "auto_increment") by exact X. reflexivity.
  - do 3 skip_word "comment" X. apply alt_some. rewrite (seq_this "comment") by exact X. reflexivity.
  - do 4 skip_word "default" X. rewrite alt_none.
    + apply alt_some. rewrite (seq_this "default") by exact X. rewrite (seq_this "charset") by exact Y0. reflexivity.
    + rewrite (seq_this "default") by exact X. apply seq_none. apply (kw_other _ "charset"); [exact Y0|discriminate].
Qed.
Lemma topt_length o lo : topt_lex o lo -> (0 < length lo)%nat.
Proof. intros []; cbn; lia. Qed.
Lemma topts_ok os lo : Forall2 topt_lex os lo -> forall j, (length (concat lo) < j)%nat -> many j (table_option lx) (concat lo) = Ok (Some (map topt_pv os, [])).
Proof.
  induction 1 as [|o l os lo O F IH]; intros j J; (destruct j as [|j]; [lia|]); cbn [concat many map] in *; [reflexivity|].
  rewrite (topt_ok o) by exact O. pose proof (topt_length o l O). rewrite app_length in J. rewrite IH by lia. reflexivity.
Qed.

(** ** The statement *)
Definition def_pv (d : table_def) : pv :=
  PRes [] false false [PRes (u "create table") false false
    (PText (u "create") :: (if td_guard d then [flag_tok "replace" false] else []) ++
     named_tok "name" (PText (td_name d)) :: (map column_pv (td_cols d) ++ map constr_pv (td_cons d)) ++ map topt_pv (td_opts d))].
Lemma Forall2_both {A B} (R S : A -> B -> Prop) l m : Forall2 R l m -> (forall a b, In a l -> R a b -> S a b) -> Forall2 S l m.
Proof. induction 1 as [|a b l m H F IH]; intros X; constructor; [apply X; [now left|exact H]|]. apply IH. intros. apply X; [now right|assumption]. Qed.
Lemma Forall2_map1 {A A' B} (f : A -> A') (R : A' -> B -> Prop) l m : Forall2 (fun a b => R (f a) b) l m -> Forall2 R (map f l) m.
Proof. induction 1; cbn [map]; constructor; assumption. Qed.
Theorem create_ok n d ls : good_def d -> def_lex d ls -> (length ls < k)%nat -> (0 < n)%nat -> create_table lx ft k n ls = Ok (Some (def_pv d, [])).
Proof.
  intros (NE & GC & GK & _) D L N0. destruct D as [t guard cols cons opts lc lk lo FC FK FO]. cbn [td_cols td_cons td_opts] in *. unfold create_table.
  set (r1 := separated (lc ++ lk) ++ Y ")" :: concat lo) in *. set (r0 := (if guard then [K "if"; K "not"; K "exists"] else []) ++ LName t :: Y "(" :: r1) in *.
  assert (L1 : (length r1 < k)%nat) by (subst r0; cbn [length] in L; rewrite app_length in L; cbn [length] in L; lia).
  rewrite (seq_some _ _ _ tt (K "table" :: r0)) by reflexivity. rewrite (seq_some _ _ _ None (K "table" :: r0)) by reflexivity.
  rewrite (seq_some _ _ _ None (K "table" :: r0)) by reflexivity. rewrite (seq_some _ _ _ tt r0) by reflexivity.
  rewrite (seq_some _ _ _ (if guard then Some tt else None) (LName t :: Y "(" :: r1)) by (subst r0; destruct guard; reflexivity).
  rewrite (seq_some _ _ _ t (Y "(" :: r1)) by reflexivity.
  rewrite (seq_some _ _ _ (Some (map column_pv cols ++ map constr_pv cons)) (concat lo)).
  2: { apply option_some. rewrite (seq_some _ _ _ tt r1) by reflexivity. rewrite (seq_some _ _ _ (map column_pv cols ++ map constr_pv cons) (Y ")" :: concat lo)); [reflexivity|].
       apply (list_if k closing); [intros r; exists r; now left| |destruct cols; [congruence|discriminate]|exists (concat lo); now right|reflexivity|exact L1].
       apply Forall2_app; apply Forall2_map1.
       - apply (Forall2_both _ _ _ _ FC). intros c l I0 CL. apply column_ok; [exact N0| |exact CL]. rewrite Forall_forall in GC. now apply GC.
       - apply (Forall2_both _ _ _ _ FK). intros c l I0 CL. apply constr_ok; [|exact CL]. rewrite Forall_forall in GK. now apply GK. }
  rewrite (seq_some _ _ _ (map topt_pv opts) []).
  2: { apply topts_ok; [exact FO|]. subst r1. rewrite app_length in L1. cbn [length] in L1. lia. }
  rewrite (seq_some _ _ _ tt []) by reflexivity. unfold def_pv. cbn [td_guard td_name td_cols td_cons td_opts]. destruct guard; reflexivity.
Qed.
Theorem whole_create d ls : good_def d -> def_lex d ls -> (length ls < k)%nat -> whole lx ft k k ls = Ok (Some (def_pv d, [])).
Proof.
  intros G D L. unfold whole. rewrite (seq_some _ _ _ (def_pv d) []); [reflexivity|]. unfold statement. cbn [first].
  assert (H : exists r, ls = K "create" :: r) by (destruct D; eauto). destruct H as (r & ->).
  do 4 rewrite alt_none by reflexivity. apply alt_some. apply create_ok; try assumption. lia.
Qed.
End Lex.

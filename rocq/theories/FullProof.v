(** The order of the keys of a parsed statement does not matter to the rewriting and the writing. *)
From Coq Require Import String Ascii List Arith NArith ZArith QArith Bool Lia.
From Verif Require Import Base BaseProof CryptoModel CryptoSpec JsonModel RewriteModel SqlSpec EncSpec WhereProof StmtSpec SimProof HistoryProof FmtModel FmtSpec FmtLexProof FmtClauseProof ValuesSpec
  SqlLex SqlRead ScrubModel OperModel OperSpec EndSpec TextSpec TextProof LitModel LitSpec GramModel GramSpec GramTextProof GramLexProof GramStmtProof AlterModel FullModel FullSpec.
Import ListNotations.

Definition eqd (d e : dict json) : Prop := forall k, dget d k = dget e k.
Lemma eqd_dset d e k v : eqd d e -> eqd (dset d k v) (dset e k v).
Proof. intros H x. rewrite !dget_dset. now rewrite (H x). Qed.
Lemma eqd_dmem d e k : eqd d e -> dmem d k = dmem e k.
Proof. intros H. unfold dmem. now rewrite (H k). Qed.

(** ** Rewriting *)
Section Rw.
Variables (E : env) (M : dbmeta).
Fixpoint inner_each (f : json -> res json) (dx : list (pystr * json)) : res (list (pystr * json)) :=
  match dx with [] => Ok [] | (a, b) :: t => do b' <- inner f b a; do t' <- inner_each f t; Ok ((a, b') :: t') end.
Lemma inner_dict f d k : inner f (JDict d) k =
  match dget d k with
  | None => Err KeyError
  | Some (JDict dx) => do dx' <- inner_each f dx; Ok (JDict (dset d k (JDict dx')))
  | Some _ => Ok JNull
  end.
Proof.
  cbn [inner]. match goal with |- ?F d = _ => set (find := F) end.
  assert (G : forall e, find e = match dget e k with None => Err KeyError | Some (JDict dx) => do dx' <- inner_each f dx; Ok (JDict (dset d k (JDict dx'))) | Some _ => Ok JNull end); [|exact (G d)].
  induction e as [|[k' x] e IH]; [reflexivity|]. unfold find. fold find. cbn [dget].
  destruct (seqb k k'); [|exact IH]. destruct x as [| | | | | |dx]; try reflexivity.
  f_equal. clear. induction dx as [|[a b] t IH]; [reflexivity|]. cbn [inner_each]. now rewrite <- IH.
Qed.
Lemma values_ext table d e : eqd d e -> values_rw E M table (JDict d) = values_rw E M table (JDict e).
Proof.
  intros H. assert (G : getitem (JDict d) (u "columns") = getitem (JDict e) (u "columns")) by (cbn [getitem]; unfold dgetE; now rewrite (H (u "columns"))).
  change (values_rw E M table ?s) with ((fun c => fun values => do t <- lookup M table; do cj <- c; do cols <- iter cj; do vals <- iter values; do l <- values_loop E t cols vals; Ok (JList l)) (getitem s (u "columns"))).
  now rewrite G.
Qed.
(** Related results: the same keys and values, and the keys of [b]. *)
Definition alike (b : dict json) (x y : json * sstate) : Prop :=
  snd x = snd y /\ (fst x = fst y /\ fst x = JNull \/
    exists d e, fst x = JDict d /\ fst y = JDict e /\ eqd d e /\ NoDup (dkeys d) /\ NoDup (dkeys e) /\ forall k, dmem d k = dmem b k).
Definition both (b : dict json) (x y : res (json * sstate)) : Prop :=
  match x, y with Ok x, Ok y => alike b x y | Err a, Err c => a = c | _, _ => False end.
Lemma dmem_dset d k v x : dmem (V := json) (dset d k v) x = (seqb k x || dmem d x)%bool.
Proof. unfold dmem. rewrite dget_dset. rewrite (seqb_sym k x). now destruct (seqb x k). Qed.
Lemma put_alike b d e k y st : eqd d e -> NoDup (dkeys d) -> NoDup (dkeys e) -> (forall k, dmem d k = dmem b k) -> dmem d k = true ->
  alike b (JDict (dset d k y), st) (JDict (dset e k y), st).
Proof.
  intros H N1 N2 B K. split; [reflexivity|]. right. exists (dset d k y), (dset e k y). cbn [fst]. repeat split.
  - now apply eqd_dset.
  - now apply dset_NoDup.
  - now apply dset_NoDup.
  - intros x. rewrite dmem_dset, <- B. destruct (seqb k x) eqn:S0; [|reflexivity]. apply seqb_eq in S0. subst x. now rewrite K.
Qed.
Lemma clause_alike b table d0 e0 k d e x st : eqd d0 e0 -> eqd d e -> NoDup (dkeys d) -> NoDup (dkeys e) -> (forall k, dmem d k = dmem b k) -> dget d k = Some x ->
  both b (clause_rw E M table (JDict d0) k d x st) (clause_rw E M table (JDict e0) k e x st).
Proof.
  intros H0 H N1 N2 B X. assert (K : dmem d k = true) by (unfold dmem; now rewrite X). unfold clause_rw.
  assert (P : forall r : res json, both b (do y <- r; Ok (JDict (dset d k y), st)) (do y <- r; Ok (JDict (dset e k y), st))).
  { intros [y|]; [|reflexivity]. now apply put_alike. }
  destruct (smem k _); [apply P|]. destruct (smem k _).
  { destruct (select_rw M table SYM x st) as [[y st']|]; [|reflexivity]. now apply put_alike. }
  destruct (seqb k (u "from")); [apply P|]. destruct (seqb k (u "where")); [apply P|]. destruct (seqb k (u "set")); [apply P|].
  destruct (seqb k (u "orderby")); [apply P|]. destruct (seqb k (u "columns")); [apply P|]. destruct (seqb k (u "drop")); [apply P|].
  destruct (seqb k (u "query")).
  - rewrite !inner_dict. rewrite <- (H k), X. rewrite (values_ext table d0 e0 H0). destruct x as [| | | | | |dx]; try (cbn; split; [reflexivity|now left]).
    destruct (inner_each _ dx) as [dx'|]; [|reflexivity]. now apply put_alike.
  - destruct (select_rw M table SYM x s_empty) as [[y st']|]; [|reflexivity]. now apply put_alike.
Qed.
Lemma clauses_alike b table d0 e0 nested keys : eqd d0 e0 -> forall d e st, eqd d e -> NoDup (dkeys d) -> NoDup (dkeys e) -> (forall k, dmem d k = dmem b k) ->
  both b (clauses_rw E M table (JDict d0) nested keys (JDict d) st) (clauses_rw E M table (JDict e0) nested keys (JDict e) st).
Proof.
  intros H0. induction keys as [|k keys IH]; intros d e st H N1 N2 B.
  - cbn. split; [reflexivity|]. right. exists d, e. now repeat split.
  - cbn [clauses_rw]. rewrite <- (H k). destruct (dget d k) as [x|] eqn:X; [|now apply IH].
    destruct (if seqb k (u "from") then nested x st else Ok None) as [[[x' st']|]|]; [| |reflexivity]; cbn [bind].
    + apply IH; [now apply eqd_dset|now apply dset_NoDup|now apply dset_NoDup|].
      intros y. rewrite dmem_dset, <- B. destruct (seqb k y) eqn:S0; [|reflexivity]. apply seqb_eq in S0. subst y. unfold dmem. now rewrite X.
    + pose proof (clause_alike b table d0 e0 k d e x st H0 H N1 N2 B X) as C. unfold both in C.
      destruct (clause_rw E M table (JDict d0) k d x st) as [[j s]|], (clause_rw E M table (JDict e0) k e x st) as [[j' s']|]; try contradiction; [|exact C].
      destruct C as (S0 & C). cbn [fst snd bind] in *. subst s'. destruct C as [[<- ->]|(d' & e' & -> & -> & H1 & N3 & N4 & B1)]; [|now apply IH].
      destruct keys; cbn; [|reflexivity]. split; [reflexivity|now left].
Qed.
Lemma depth_in_dict d k x : In (k, x) d -> (RewriteModel.jdepth x < RewriteModel.jdepth (JDict d))%nat.
Proof.
  cbn [RewriteModel.jdepth]. induction d as [|[a b] d IH]; [intros []|]. intros [[= -> ->]|H]; [lia|]. specialize (IH H). lia.
Qed.
Lemma depth_le d e : NoDup (dkeys d) -> eqd d e -> (RewriteModel.jdepth (JDict d) <= RewriteModel.jdepth (JDict e))%nat.
Proof.
  intros N H. cbn [RewriteModel.jdepth]. apply le_n_S.
  assert (A : forall k x, In (k, x) d -> (S (RewriteModel.jdepth x) <= RewriteModel.jdepth (JDict e))%nat).
  { intros k x X. apply (depth_in_dict e k). apply dget_In. rewrite <- (H k). now apply dget_NoDup. }
  cbn [RewriteModel.jdepth] in A. clear N H. induction d as [|[a b] d IH]; [lia|].
  pose proof (A a b (or_introl eq_refl)). assert (forall k x, In (k, x) d -> _) as A' by (intros k x X; exact (A k x (or_intror X))). specialize (IH A'). lia.
Qed.
Lemma find_table_ext keys d e : eqd d e -> find_table keys d = find_table keys e.
Proof. intros H. induction keys as [|k keys IH]; [reflexivity|]. cbn [find_table]. rewrite <- (H k). destruct (dget d k); [reflexivity|exact IH]. Qed.
Theorem rewrite_order d e : eqd d e -> NoDup (dkeys d) -> NoDup (dkeys e) ->
  match rewrite_query E M (JDict d), rewrite_query E M (JDict e) with
  | Ok (j, t, st), Ok (j', t', st') => t = t' /\ alike d (j, st) (j', st')
  | Err a, Err b => a = b
  | _, _ => False
  end.
Proof.
  intros H N1 N2. unfold rewrite_query. rewrite <- (find_table_ext table_key d e H). destruct (find_table table_key d) as [table|]; [|reflexivity]. cbn [bind].
  assert (D : RewriteModel.jdepth (JDict d) = RewriteModel.jdepth (JDict e)).
  { apply Nat.le_antisymm; apply depth_le; try assumption. intros k. symmetry. apply H. }
  rewrite <- D. set (rc := rewrite_clause _ E M).
  set (nested := fun x st => match x with JList l => do '(l', st') <- nested_list E M table rc 0 l st; Ok (Some (JList l', st')) | _ => nested_value rc x st end).
  pose proof (clauses_alike d table d e nested clause_keys H d e s_empty H N1 N2 (fun _ => eq_refl)) as C. unfold both in C.
  destruct (clauses_rw E M table (JDict d) nested clause_keys (JDict d) s_empty) as [[j s]|], (clauses_rw E M table (JDict e) nested clause_keys (JDict e) s_empty) as [[j' s']|];
    try contradiction; cbn [bind]; [|exact C]. now split.
Qed.
End Rw.

(** ** Writing *)
Section Fm.
Variables (alnum : N -> bool) (fstr : Q -> pystr).
Lemma fdepth_in_dict d k x : In (k, x) d -> (FmtModel.jdepth x < FmtModel.jdepth (JDict d))%nat.
Proof.
  cbn [FmtModel.jdepth]. induction d as [|[a b] d IH]; [intros []|]. cbn [map fold_right snd]. intros [[= -> ->]|H]; [lia|]. specialize (IH H). lia.
Qed.
Lemma fdepth_le d e : NoDup (dkeys d) -> eqd d e -> (FmtModel.jdepth (JDict d) <= FmtModel.jdepth (JDict e))%nat.
Proof.
  intros N H. cbn [FmtModel.jdepth]. apply le_n_S.
  assert (A : forall k x, In (k, x) d -> (S (FmtModel.jdepth x) <= FmtModel.jdepth (JDict e))%nat).
  { intros k x X. apply (fdepth_in_dict e k). apply dget_In. rewrite <- (H k). now apply dget_NoDup. }
  cbn [FmtModel.jdepth] in A. clear N H. induction d as [|[a b] d IH]; [cbn; lia|]. cbn [map fold_right snd].
  pose proof (A a b (or_introl eq_refl)). assert (forall k x, In (k, x) d -> _) as A' by (intros k x X; exact (A k x (or_intror X))). specialize (IH A'). lia.
Qed.
Definition written_dict (d : dict json) : Prop :=
  dmem d (u "drop") = false /\ dmem d (u "value") = false /\ (dmem d (u "insert") = true \/ existsb (fun k => dmem d k) unordered_clauses = true).
Lemma step_order disp d e prec : eqd d e -> written_dict d ->
  dispatch_step alnum fstr true disp (JDict d) prec = dispatch_step alnum fstr true disp (JDict e) prec.
Proof.
  intros H (D1 & D2 & D3).
  assert (NE : forall b : dict json, eqd d b -> b <> []).
  { intros b Hb ->. destruct D3 as [D3|D3]; [unfold dmem in D3; now rewrite (Hb (u "insert")) in D3|].
    apply existsb_exists in D3. destruct D3 as (k & _ & K). unfold dmem in K. now rewrite (Hb k) in K. }
  assert (IN : fmt_insert fstr disp d = fmt_insert fstr disp e).
  { unfold fmt_insert, dgetE, dmem. now rewrite !H. }
  assert (U : forall p, unordered_query fstr disp d p = unordered_query fstr disp e p).
  { intros p. unfold unordered_query. now rewrite (clauses_ext fstr disp unordered_clauses d e H). }
  assert (O : ordered_query fstr disp d prec = ordered_query fstr disp e prec).
  { unfold ordered_query. rewrite (existsb_dmem d e (fun k b => negb (seqb k (u "from")) && b) unordered_clauses H).
    rewrite (clauses_ext fstr disp ordered_clauses d e H), U. unfold dgetE. now rewrite (H (u "from")). }
  destruct d as [|p d0]; [now destruct (NE [])|]. destruct e as [|q e0]; [now destruct (NE [])|]. set (d := p :: d0) in *. set (e := q :: e0) in *.
  cbn [dispatch_step]. fold d e. change (match d with [] => ?a | _ => ?b end) with b. change (match e with [] => ?a | _ => ?b end) with b. rewrite <- !(eqd_dmem d e _ H). rewrite D1, D2. rewrite IN, U, O.
  rewrite <- (existsb_dmem d e (fun _ b => b) ordered_clauses H), <- (existsb_dmem d e (fun _ b => b) unordered_clauses H).
  destruct (dmem d (u "join")); [reflexivity|]. destruct (dmem d (u "insert")) eqn:I0; [reflexivity|]. destruct D3 as [D3|D3]; [discriminate D3|]. rewrite D3. reflexivity.
Qed.
Theorem format_order d e : eqd d e -> NoDup (dkeys d) -> NoDup (dkeys e) -> written_dict d -> format_sql alnum fstr (JDict d) = format_sql alnum fstr (JDict e).
Proof.
  intros H N1 N2 W. unfold format_sql.
  assert (D : FmtModel.jdepth (JDict d) = FmtModel.jdepth (JDict e)).
  { apply Nat.le_antisymm; apply fdepth_le; try assumption. intros k. symmetry. apply H. }
  rewrite <- D. replace (FmtModel.jdepth (JDict d) * 2 + 3)%nat with (S (FmtModel.jdepth (JDict d) * 2 + 2))%nat by lia. cbn [dispatch]. now apply step_order.
Qed.
End Fm.

(** ** ALTER TABLE *)
Lemma not_alter alnum q : forall s prev, (forall pre c r, s = pre ++ c :: r -> Forall (fun c => AlterModel.blank c = true) pre -> same_letter 97 c = false) ->
  star AlterModel.blank (rx alnum (Kw "alter" :: q)) prev s = None.
Proof.
  assert (K0 : forall prev c r, same_letter 97 c = false -> rx alnum (Kw "alter" :: q) prev (c :: r) = None).
  { intros prev c r H. cbn [rx]. change (u "alter") with (97 :: u "lter")%N. cbn [keyword]. now rewrite H. }
  induction s as [|c s IH]; intros prev H; [reflexivity|]. cbn [star].
  destruct (AlterModel.blank c) eqn:B.
  - rewrite IH.
    + rewrite K0; [reflexivity|]. unfold AlterModel.blank in B. unfold same_letter. lia.
    + intros pre x r -> F. apply (H (c :: pre) x r); [reflexivity|now constructor].
  - rewrite K0; [reflexivity|]. now apply (H [] c s).
Qed.
Lemma no_alter_key alnum s : (forall pre c r, s = pre ++ c :: r -> Forall (fun c => AlterModel.blank c = true) pre -> same_letter 97 c = false) ->
  parse_alter_key alnum s = [].
Proof.
  intros H. unfold parse_alter_key. repeat (match goal with |- matched (rx _ ?p None s) _ _ = _ => unfold matched at 1; change (rx alnum p None s) with (match star AlterModel.blank (rx alnum (tl p)) None s with Some (_, x) => Some x | None => None end) end;
    cbn [tl add_primary drop_primary add_foreign drop_foreign add_named drop_index alter_table]; rewrite not_alter by exact H). reflexivity.
Qed.
Lemma first_word c ls : cmd_lex c ls -> exists w r x t, ls = LKw w :: r /\ w = x :: t /\ In x [115; 105; 117; 100]%N.
Proof. intros []; eexists _, _, _, _; (split; [reflexivity|split; [reflexivity|cbn; auto]]). Qed.
Lemma writes_no_alter alnum c text : writes_cmd c text -> parse_alter_key alnum text = [].
Proof.
  intros (ls & C & lead & s & semis & spaces & -> & B & SP & _). apply no_alter_key.
  destruct (first_word c ls C) as (w & r & x & t & -> & -> & NX).
  assert (S0 : exists y s', s = y :: s' /\ low_char y = x).
  { inversion SP as [|? t0 ? W|? t0 ? ? ? W]; subst; inversion W as [? ? ? _ E| | | | | | |]; subst; (destruct t0 as [|y t0]; [discriminate E|]); injection E as E _; eexists _, _; (split; [reflexivity|exact E]). }
  destruct S0 as (y & s' & -> & L). cbn [app]. generalize (s' ++ semis ++ spaces). intros z. clear - B L NX.
  assert (Y0 : AlterModel.blank y = false /\ same_letter 97 y = false).
  { unfold AlterModel.blank, same_letter. unfold low_char in L. cbn [In] in NX. destruct ((65 <=? y) && (y <=? 90))%N eqn:Q; lia. }
  destruct Y0 as [Y1 Y2]. induction B as [|b lead Hb B IH]; intros [|a pre] x0 r E P0; cbn [app] in E; injection E as -> E.
  - exact Y2.
  - inversion_clear P0. congruence.
  - cbn [In] in Hb. unfold same_letter. lia.
  - inversion_clear P0. now apply (IH pre x0 r).
Qed.

(** ** One text *)
Local Ltac nodup := repeat (apply NoDup_cons; [let X := fresh in intros X; vm_compute in X; intuition discriminate|]); apply NoDup_nil.
Section Steps.
Variables (uname : pystr -> option N) (more : pystr -> pystr -> res pystr) (ft : pystr -> bool) (alnum : N -> bool) (fstr : Q -> pystr) (bs : bool) (M : dbmeta).
Hypothesis HA : ascii_ok alnum.
Hypothesis HM : wf_meta is_keyword M.
Hypothesis UN : usable_names M.
Lemma sup_good E c : sup_cmd ft bs E M c -> good_cmd ft c.
Proof.
  assert (W : forall m w, where_sup ft bs E m w -> where_good ft w) by (intros m [s|]; cbn; tauto).
  destruct c as [i t w o lim|t cs vs|t sets w|t w]; cbn [sup_cmd good_cmd].
  - intros (m & _ & _ & _ & H & _). now apply (W m).
  - intros (m & _ & H & _ & L & _). now rewrite <- L.
  - intros (m & _ & H1 & H2 & H3 & _). split; [exact H1|split; [exact H2|now apply (W m)]].
  - intros (m & _ & H). now apply (W m).
Qed.
Lemma parsed_dict c j : parsed ft c = Ok j -> exists d, j = JDict d /\ NoDup (dkeys d) /\ written_dict d /\ dmem d (u "alter") = false.
Proof.
  intros P. destruct c as [i t w o lim|t cs vs|t sets w|t w]; cbn [parsed] in P.
  - destruct (optR (cond_json ft) w) as [x|]; [|discriminate P]. cbn [bind] in P. injection P as <-. unfold select_stmt. eexists. split; [reflexivity|].
    destruct x, o as [[? []]|], lim as [[? [?|]]|]; (split; [cbn; nodup|]); (split; [split; [reflexivity|split; [reflexivity|now right]]|reflexivity]).
  - injection P as <-. eexists. split; [reflexivity|]. split; [cbn; nodup|]. split; [split; [reflexivity|split; [reflexivity|now left]]|reflexivity].
  - destruct (optR (cond_json ft) w) as [x|]; [|discriminate P]. cbn [bind] in P. injection P as <-. unfold update_stmt. eexists. split; [reflexivity|].
    destruct x; (split; [cbn; nodup|]); (split; [split; [reflexivity|split; [reflexivity|now right]]|reflexivity]).
  - destruct (optR (cond_json ft) w) as [x|]; [|discriminate P]. cbn [bind] in P. injection P as <-. unfold delete_stmt. eexists. split; [reflexivity|].
    destruct x; (split; [cbn; nodup|]); (split; [split; [reflexivity|split; [reflexivity|now right]]|reflexivity]).
Qed.
Lemma not_null n : read_text n bs true (u "NULL") = None.
Proof. reflexivity. Qed.
Lemma full_step E c text pdb edb : prim_ok (e_P E) -> sup_cmd ft bs E M c -> writes_cmd c text -> db_rel E M pdb edb ->
  exists m table st sent q, dget M (target c) = Some m /\ rewrite_text uname more ft alnum fstr E M text = Ok (Some sent, table, st) /\
    says bs true sent q /\ target q = t_anon m /\
    same_step E M (obey pdb (meaning c)) (do '(D', rs) <- obey edb q; do out <- decrypt_result E M table st rs; Ok (D', out)).
Proof.
  intros HP SC WR D. destruct (text_step ft alnum fstr bs M HA HM UN E c pdb edb HP SC D) as (m & j & j' & table & st & sent & q & Hm & PJ & RW & FT & SY & TG & X).
  exists m, table, st, sent, q. split; [exact Hm|]. split; [|now repeat split].
  unfold rewrite_text, parse_text. rewrite (writes_no_alter alnum c text WR). destruct WR as (ls & C & SP).
  destruct (statement_parsed uname more ft c ls text (sup_good E c SC) C SP) as (o & jo & PM & PJ' & SD & KO).
  rewrite PJ in PJ'. injection PJ' as <-. rewrite PM. cbn [bind].
  destruct (parsed_dict c j PJ) as (d & -> & ND & WD & AL). destruct (json_of o) as [| | | | | |e] eqn:JO; try contradiction. cbn [same_dict keys_once] in SD, KO.
  assert (H : eqd d e) by (intros k; symmetry; apply SD).
  pose proof (rewrite_order E M d e H ND KO) as R. rewrite RW in R. destruct (rewrite_query E M (JDict e)) as [[[j2 t2] st2]|]; [|contradiction]. cbn [bind].
  destruct R as (<- & S0 & R). cbn [fst snd] in S0, R. subst st2. destruct R as [[_ ->]|(d1 & e1 & -> & -> & H1 & N1 & N2 & B)].
  - exfalso. injection FT as <-. destruct SY as [N0 SY]. specialize (SY N0 (le_n N0)). now rewrite not_null in SY.
  - unfold write_text. cbn [contains bind]. rewrite <- (eqd_dmem d1 e1 _ H1), B, AL. cbn [bind].
    rewrite <- (format_order alnum fstr d1 e1 H1 N1 N2), FT; [reflexivity|].
    destruct WD as (W1 & W2 & W3). split; [now rewrite B|]. split; [now rewrite B|]. rewrite B. destruct W3 as [W3|W3]; [now left|right].
    apply existsb_exists in W3. apply existsb_exists. destruct W3 as (k & I0 & K0). exists k. split; [exact I0|]. now rewrite B.
Qed.

(** ** Histories of texts *)
Lemma full_history E h pdb edb : prim_ok (e_P E) ->
  Forall (fun x => sup_cmd ft bs (with_rnd E (fst x)) M (snd (snd x)) /\ writes_cmd (snd (snd x)) (fst (snd x))) h -> db_rel E M pdb edb ->
  exists N, forall n, (N <= n)%nat ->
    answers (fun r D x => app_proxy uname more ft alnum fstr bs n (with_rnd E r) M D (fst x)) edb h = answers (fun _ D x => obey D (meaning (snd x))) pdb h.
Proof.
  intros HP F. revert pdb edb. induction F as [|[r [text c]] h [Hc Hw] F IH]; intros pdb edb D; [exists O; reflexivity|]. cbn [fst snd] in Hc, Hw.
  destruct (full_step (with_rnd E r) c text pdb edb HP Hc Hw (proj1 (db_rel_rnd E M r pdb edb) D)) as (m & table & st & sent & q & _ & RT & [N1 SY] & _ & X).
  set (e := do '(D', rs) <- obey edb q; do out <- decrypt_result (with_rnd E r) M table st rs; Ok (D', out)) in *.
  assert (TP : forall n, (N1 <= n)%nat -> app_proxy uname more ft alnum fstr bs n (with_rnd E r) M edb text = e).
  { intros n L. unfold app_proxy. rewrite RT. cbn [bind]. now rewrite (SY n L). }
  clearbody e. unfold same_step in X. destruct (obey pdb (meaning c)) as [[pdb' rs]|e1] eqn:OB, e as [[edb' rs']|e2]; cbn [res_rel fst snd] in X; try contradiction.
  - destruct X as [-> D']. destruct (IH pdb' edb') as [N2 H2]; [apply (proj2 (db_rel_rnd E M r pdb' edb')), D'|]. exists (N1 + N2)%nat. intros n L. cbn [answers fst snd].
    rewrite TP, OB by lia. f_equal. apply H2. lia.
  - subst e2. destruct (IH pdb edb D) as [N2 H2]. exists (N1 + N2)%nat. intros n L. cbn [answers fst snd]. rewrite TP, OB by lia. f_equal. apply H2. lia.
Qed.
End Steps.

(** From the text of CREATE TABLE to the physical table. *)
From Coq Require Import String Ascii List Arith NArith ZArith QArith Bool Lia ZifyBool ZifyNat ZifyN.
From Verif Require Import Base BaseProof CryptoModel JsonModel RewriteModel WidthModel SqlSpec EncSpec StmtSpec CreateModel CreateSpec CreateProof DeclProof ScrubModel OperModel OperSpec TextSpec
  LitModel LitSpec GramModel GramSpec DdlSpec DdlProof DdlJsonProof.
Import ListNotations.
Open Scope Z_scope.

(** ** The options of a column *)
Definition opts_json (os : list copt) : list (pystr * json) := map (fun o => (u (opt_key o), opt_json o)) os.
Definition col_dict (c : column) : list (pystr * json) :=
  (u "name", JStr (cl_name c)) :: (u "type", type_json (cl_type c)) :: opts_json (cl_opts c).
Lemma column_dict c : column_json c = JDict (col_dict c). Proof. reflexivity. Qed.
Lemma opts_absent os k : ~ In k (map opt_key os) -> dget (opts_json os) (u k) = None.
Proof.
  intros N. apply dget_None. intros H. unfold dkeys, opts_json in H. rewrite map_map in H. cbn [fst] in H. apply in_map_iff in H. destruct H as (o & E & I0).
  apply u_inj in E. apply N. rewrite <- E. now apply in_map.
Qed.
Lemma opts_nullable os : nullable_of (JDict (opts_json os)) = null_words os.
Proof. induction os as [|o os IH]; [reflexivity|]. destruct o; try exact IH; reflexivity. Qed.
Lemma opts_primary os : NoDup (map opt_key os) -> asked (JDict (opts_json os)) "primary_key" = existsb is_primary os.
Proof. induction os as [|o os IH]; [reflexivity|]. intros N. cbn [map] in N. inversion_clear N. destruct o; try (exact (IH H0)); reflexivity. Qed.
Lemma opts_auto os : NoDup (map opt_key os) -> asked (JDict (opts_json os)) "auto_increment" = existsb is_auto os.
Proof. induction os as [|o os IH]; [reflexivity|]. intros N. cbn [map] in N. inversion_clear N. destruct o; try (exact (IH H0)); reflexivity. Qed.
Lemma opts_comment os : dget (opts_json os) (u "comment") = match comment_of os with Some s => Some (JDict [(u "literal", JStr s)]) | None => None end.
Proof. induction os as [|o os IH]; [reflexivity|]. destruct o; try exact IH; reflexivity. Qed.
Lemma col_get c k : k <> "name"%string -> k <> "type"%string -> dget (col_dict c) (u k) = dget (opts_json (cl_opts c)) (u k).
Proof.
  intros A B. unfold col_dict. cbn [dget]. destruct (seqb (u k) (u "name")) eqn:E; [apply seqb_eq in E; apply u_inj in E; contradiction|].
  destruct (seqb (u k) (u "type")) eqn:E'; [apply seqb_eq in E'; apply u_inj in E'; contradiction|]. reflexivity.
Qed.
Lemma col_no_default c : ~ In "default"%string (map opt_key (cl_opts c)) -> no_default (column_json c).
Proof. intros N. rewrite column_dict. cbn [no_default]. rewrite col_get by discriminate. now apply opts_absent. Qed.
Lemma col_is_def c : ty_unsigned (cl_type c) = false -> col_def (column_json c) (cl_name c) (u (ty_word (cl_type c))) (sizes_json (ty_sizes (cl_type c))).
Proof.
  intros N. exists (col_dict c). split; [reflexivity|]. split; [reflexivity|]. change (Some (type_json (cl_type c)) = Some (JDict [(u (ty_word (cl_type c)), sizes_json (ty_sizes (cl_type c)))])).
  unfold type_json. now rewrite N.
Qed.
Lemma col_decl E c m : (c_plain m = true -> (length (ty_sizes (cl_type c)) <= 1)%nat) -> NoDup (map opt_key (cl_opts c)) ->
  decl_of E (column_json c) (cl_name c) (u (ty_word (cl_type c))) (sizes_json (ty_sizes (cl_type c))) m = col_decls c m.
Proof.
  intros L N. assert (N0 : nullable_of (column_json c) = null_words (cl_opts c)) by (rewrite <- opts_nullable; reflexivity).
  assert (K0 : key_text (column_json c) = key_words (cl_opts c)) by (unfold key_words; rewrite <- opts_primary, <- opts_auto by exact N; reflexivity).
  unfold decl_of, col_decls. rewrite N0, K0. destruct (c_plain m); [|reflexivity]. specialize (L eq_refl). do 4 f_equal.
  destruct (ty_sizes (cl_type c)) as [|z [|z' l]]; [reflexivity| |cbn in L; lia]. cbn [sizes_json map some_json RewriteModel.truthy size_words py_str]. destruct (z =? 0); reflexivity.
Qed.

(** ** A column *)
Lemma column_made E fresh enc D i k ty arg : dget D (u "name") = Some (JStr k) -> dget D (u "type") = Some (JDict [(ty, arg)]) -> dget D (u "default") = None ->
  forall com, dget D (u "comment") = match com with Some s => Some (JDict [(u "literal", JStr s)]) | None => None end ->
  match dget enc k with
  | None => True
  | Some o => good_options o /\ exists parts, element_type (upper ty) = Some parts /\ forall kv, In kv parts -> exists t, enc_type_text ty arg (snd kv) = Ok t
  end ->
  exists ds n m j, create_column E fresh enc (JDict D) i = Ok (ds, n, m, j) /\ c_comment m = com.
Proof.
  intros Dn Dt Dd com Dc H. unfold create_column.
  assert (ND : forall f, default_text (JDict D) f = Ok []) by (intros f; apply no_default_text; exact Dd).
  unfold flag at 1 2. cbn [get bind]. cbn [getitem]. unfold dgetE. rewrite Dn, Dt. cbn [bind as_str]. unfold nullable_text. cbn [contains bind].
  assert (NT : exists nul, (if dmem D (u "nullable") then do f <- flag (JDict D) (u "nullable"); Ok (if f then u " NULL " else u " NOT NULL ") else Ok []) = Ok nul)
    by (destruct (dmem D (u "nullable")); eexists; reflexivity).
  destruct NT as (nul & ->). cbn [bind CreateModel.get]. rewrite Dc.
  assert (CM : (if RewriteModel.truthy (match match com with Some s => Some (JDict [(u "literal", JStr s)]) | None => None end with Some x => x | None => JNull end)
                then do l <- get (match match com with Some s => Some (JDict [(u "literal", JStr s)]) | None => None end with Some x => x | None => JNull end) (u "literal");
                     Ok (match l with JStr s => Some s | _ => None end) else Ok None) = Ok com) by (destruct com; reflexivity).
  rewrite CM. clear CM. cbn [bind]. destruct (dget enc k) as [o|].
  - destruct H as ((d & key & -> & Hk & Hf & Hh & Hs) & parts & EP & PT). cbn [CreateModel.items bind]. rewrite EP. cbn [getitem]. unfold dgetE. rewrite Hk. cbn [bind as_str].
    assert (EX : forall pk i, exists ds e j, enc_parts E fresh (JDict D) key nul pk parts [(ty, arg)] i = Ok (ds, e, j)).
    { clear -ND PT. intros pk. induction parts as [|[a v] parts IH]; intros i; [eexists _, _, _; reflexivity|]. cbn [enc_parts enc_types]. rewrite ND. cbn [bind].
      destruct (PT (a, v) (or_introl eq_refl)) as (t & T). cbn [snd] in T. rewrite T. cbn [bind]. destruct (IH (fun kv I0 => PT kv (or_intror I0)) (S i)) as (ds & e & j & ->). eexists _, _, _. reflexivity. }
    match goal with |- context [enc_parts E fresh (JDict D) key nul ?pk parts [(ty, arg)] i] => destruct (EX pk i) as (ds1 & e1 & i1 & ->) end. cbn [bind].
    destruct (dget d (u "fuzzy")) as [fz|]; [|congruence]. cbn [bind]. unfold get_or_empty at 1. cbn [bind]. rewrite ND.
    assert (OP : forall on ci ty' n i', exists x y z, option_part on fresh ci ty' n (Ok []) i' = Ok (x, y, z)) by (intros [] ? ? ? ?; eexists _, _, _; reflexivity).
    destruct (OP (RewriteModel.truthy fz) FUZ fuzzy_type_fixed nul i1) as (x1 & y1 & z1 & ->). cbn [bind]. unfold flag at 1. cbn [get bind]. unfold get_or_empty at 1. cbn [bind]. rewrite ND.
    match goal with |- context [option_part ?b fresh ARI ?t nul (Ok []) z1] => destruct (OP b ARI t nul z1) as (x2 & y2 & z2 & ->) end. cbn [bind].
    assert (HM : forall b : bool, exists h, (if b then do h <- homo_meta (match dget d (u "homomorphic_key") with Some x => x | None => JStr [] end); Ok (Some h) else Ok None) = Ok h).
    { intros [|]; [|eexists; reflexivity]. destruct Hh as [-> | (p & q & ->)]; eexists; reflexivity. }
    match goal with |- context [if ?b then do h <- homo_meta ?x; Ok (Some h) else Ok None] => destruct (HM b) as (h & ->) end. cbn [bind]. unfold flag at 1. cbn [get bind]. unfold get_or_empty at 1. cbn [bind]. rewrite ND.
    match goal with |- context [option_part ?b fresh SM4C ?t nul (Ok []) z2] => destruct (OP b SM4C t nul z2) as (x3 & y3 & z3 & ->) end. cbn [bind].
    assert (SM : forall b : bool, exists h, (if b then do k0 <- as_str (match dget d (u "sm4_key") with Some x => x | None => JStr [] end); Ok (Some k0) else Ok None) = Ok h).
    { intros [|]; [|eexists; reflexivity]. destruct Hs as [-> | (s & ->)]; eexists; reflexivity. }
    match goal with |- context [if ?b then do k0 <- as_str ?x; Ok (Some k0) else Ok None] => destruct (SM b) as (s & ->) end. cbn [bind]. eexists _, _, _, _. split; reflexivity.
  - cbn [CreateModel.items bind CreateModel.plain_types]. rewrite ND. cbn [bind]. eexists _, _, _, _. split; reflexivity.
Qed.
Lemma enc_type_parts c : enc_type c ->
  exists parts, element_type (upper (u (ty_word c))) = Some parts /\ forall kv, In kv parts -> exists t, enc_type_text (u (ty_word c)) (sizes_json (ty_sizes c)) (snd kv) = Ok t.
Proof.
  intros (_ & [(I0 & S0)|(I0 & z & S0 & L)]); destruct c as [w l un]; cbn [ty_word ty_sizes] in *.
  - assert (X : RewriteModel.truthy (sizes_json l) = false) by (destruct S0 as [-> | ->]; reflexivity). cbn [In] in I0. each I0 ltac:(idtac; eexists; split; [reflexivity|]; intros kv K0; cbn [In] in K0;
      each K0 ltac:(idtac; cbn [snd]; unfold enc_type_text; rewrite X; eexists; reflexivity)).
  - subst l. cbn [sizes_json map some_json]. assert (X : RewriteModel.truthy (JInt z) = true) by (cbn [RewriteModel.truthy]; lia). assert (Y0 : z <? 0 = false) by lia.
    cbn [In] in I0. each I0 ltac:(idtac; eexists; split; [reflexivity|]; intros kv K0; cbn [In] in K0; each K0 ltac:(idtac; cbn [snd]; unfold enc_type_text; rewrite X, Y0; destruct (get_type_and_len _ _); eexists; reflexivity)).
Qed.
Lemma enc_type_words c : enc_type c -> In (u (ty_word c)) [u "int"; u "varchar"; u "char"; u "float"; u "double"].
Proof. intros (_ & [(I0 & _)|(I0 & _)]); cbn [In] in I0; destruct c as [w l un]; cbn [ty_word] in *; each I0 ltac:(idtac; cbn [In]; tauto). Qed.
Lemma takes_signed enc c : takes enc c -> ty_unsigned (cl_type c) = false.
Proof. intros (_ & H). destruct (dget enc (cl_name c)); [apply H|apply H]. Qed.
Lemma column_success E fresh enc c i : good_column c -> takes enc c ->
  exists ds m j, create_column E fresh enc (column_json c) i = Ok (ds, cl_name c, m, j) /\ ds = col_decls c m /\ col_meta enc c m.
Proof.
  intros (_ & ND & _) T. pose proof (takes_signed _ _ T) as US. destruct T as (NF & T). pose proof (col_is_def c US) as CD.
  assert (TW : dget enc (cl_name c) <> None -> In (u (ty_word (cl_type c))) [u "int"; u "varchar"; u "char"; u "float"; u "double"])
    by (revert T; destruct (dget enc (cl_name c)); intros T H; [now apply enc_type_words|congruence]).
  destruct (column_made E fresh enc (col_dict c) i (cl_name c) (u (ty_word (cl_type c))) (sizes_json (ty_sizes (cl_type c)))) with (com := comment_of (cl_opts c)) as (ds & n & m & j & X & CM).
  - reflexivity.
  - destruct CD as (D & E0 & _ & X). rewrite column_dict in E0. now injection E0 as <-.
  - rewrite col_get by discriminate. now apply opts_absent.
  - rewrite col_get by discriminate. apply opts_comment.
  - destruct (dget enc (cl_name c)); [|exact I]. destruct T as (T & O). split; [exact O|]. now apply enc_type_parts.
  - rewrite <- column_dict in X. destruct (create_column_ok _ _ _ _ _ _ _ _ _ _ _ _ CD X) as (-> & DS & _). exists ds, m, j. split; [exact X|]. split.
    + rewrite (create_column_text _ _ _ _ _ _ _ _ _ _ _ _ CD (col_no_default c NF) TW X).
      apply col_decl; [|exact ND]. intros P. destruct DS as (_ & _ & DS). destruct (dget enc (cl_name c)); [|apply T]. destruct DS as (DS & _). congruence.
    + destruct DS as (A & _ & B). split; [exact A|]. split; [exact CM|]. destruct (dget enc (cl_name c)) as [o|]; [|apply B]. destruct B as (B1 & B2 & B3 & _). now repeat split.
Qed.
Lemma columns_success E fresh enc : forall cols kv i, Forall good_column cols -> Forall (takes enc) cols -> NoDup (dkeys kv ++ map cl_name cols) ->
  exists ds new j, create_columns E fresh enc (map column_json cols) kv i = Ok (ds, kv ++ new, j) /\ dkeys new = map cl_name cols /\
    ds = concat (map (fun x => col_decls (fst x) (snd (snd x))) (combine cols new)) /\ Forall2 (fun c kc => col_meta enc c (snd kc)) cols new.
Proof.
  induction cols as [|c cols IH]; intros kv i G T N.
  - exists [], [], i. cbn [map create_columns combine concat]. rewrite app_nil_r. now repeat split.
  - inversion_clear G. inversion_clear T. cbn [map] in N. destruct (column_success E fresh enc c i H H1) as (ds & m & j & X & -> & CM).
    assert (NI : ~ In (cl_name c) (dkeys kv)) by (intros Y; apply NoDup_remove_2 in N; apply N, in_or_app; now left).
    destruct (IH (kv ++ [(cl_name c, m)]) j H0 H2) as (ds' & new & j' & Y & K & -> & F).
    { unfold dkeys in *. rewrite map_app. cbn [map fst]. now rewrite <- app_assoc. }
    exists (col_decls c m ++ concat (map (fun x => col_decls (fst x) (snd (snd x))) (combine cols new))), ((cl_name c, m) :: new), j'. cbn [map create_columns]. rewrite X. cbn [bind].
    rewrite dset_new by exact NI. rewrite Y. cbn [bind]. rewrite <- app_assoc. split; [reflexivity|]. split; [unfold dkeys in *; cbn [map fst]; now rewrite K|]. split; [reflexivity|]. now constructor.
Qed.

(** ** The statement *)
Lemma some_json_list l : l <> [] -> (forall x, In x l -> exists d, x = JDict d) -> match some_json l with JList x => x | x => [x] end = l.
Proof. intros NE H. destruct l as [|x [|y l]]; [congruence| |reflexivity]. destruct (H x (or_introl eq_refl)) as (d & ->). reflexivity. Qed.
Lemma dget_app_none {V} (a b : dict V) k : dget a k = None -> dget (a ++ b) k = dget b k.
Proof. induction a as [|[k' v] a IH]; [reflexivity|]. cbn [app dget]. destruct (seqb k k'); [discriminate|exact IH]. Qed.
Lemma constr_dict c : exists d, constr_json c = JDict d. Proof. destruct c; eexists; reflexivity. Qed.
Lemma def_create_of d : good_def d -> create_of (def_json d) (td_name d) (map column_json (td_cols d)) (map constr_json (td_cons d)).
Proof.
  intros (NE & _). unfold def_json. eexists _, _. split; [reflexivity|]. split; [reflexivity|].
  assert (G : forall k X, k <> "replace"%string -> dget ((if td_guard d then [(u "replace", JBool false)] else []) ++ X) (u k) = dget X (u k)).
  { intros k X N. destruct (td_guard d); [|reflexivity]. apply dget_app_none. cbn [dget]. destruct (seqb (u k) (u "replace")) eqn:E; [apply seqb_eq in E; apply u_inj in E; contradiction|reflexivity]. }
  split; [rewrite G by discriminate; reflexivity|]. split.
  - rewrite G by discriminate. change (listed (Some (some_json (map column_json (td_cols d)))) (map column_json (td_cols d))). destruct (td_cols d) as [|c [|c' l]]; [congruence| |]; reflexivity.
  - rewrite G by discriminate. change (listed (dget (match td_cons d with [] => [] | l => [(u "constraint", some_json (map constr_json l))] end ++ map (fun o => (u (topt_key o), topt_json o)) (td_opts d)) (u "constraint")) (map constr_json (td_cons d))).
    destruct (td_cons d) as [|c [|c' l]].
    + rewrite dget_app_none by reflexivity. rewrite (proj2 (dget_None _ _)); [reflexivity|]. intros H. unfold dkeys in H. rewrite map_map in H. apply in_map_iff in H. destruct H as (o & X & _). destruct o; discriminate X.
    + cbn [app dget]. rewrite (proj2 (seqb_eq _ _) eq_refl). cbn [map some_json]. destruct (constr_dict c) as (x & ->). reflexivity.
    + cbn [app dget]. rewrite (proj2 (seqb_eq _ _) eq_refl). reflexivity.
Qed.
Lemma table_eq E fresh anon meta enc d : good_def d -> rewrite_table E fresh anon meta (def_json d) enc =
  do '(ds, kv, _) <- create_columns E fresh enc (map column_json (td_cols d)) [] 0%nat;
  do ks <- mapM (fun c => constraint_key c kv meta) (map constr_json (td_cons d));
  Ok (create_text anon ds ks (u ";"), td_name d, {| t_anon := anon; t_cols := kv; t_comment := None |}).
Proof.
  intros G. destruct (def_create_of d G) as (top & ct & E0 & H1 & H2 & H3 & H4).
  assert (TOP : top = [(u "create table", JDict ct)]).
  { unfold def_json in E0. injection E0 as <-. cbn [dget] in H1. rewrite (proj2 (seqb_eq _ _) eq_refl) in H1. injection H1 as <-. reflexivity. }
  rewrite E0. subst top. clear E0 H1. unfold rewrite_table.
  change (contains (JDict [(u "create table", JDict ct)]) (u "create table")) with (Ok true). cbn [bind negb].
  change (getitem (JDict [(u "create table", JDict ct)]) (u "create table")) with (Ok (JDict ct)). cbn [bind getitem]. unfold dgetE. rewrite H2. cbn [bind as_str].
  destruct (dget ct (u "columns")) as [jc|]; [|destruct G as (NE & _); cbn in H3; destruct (td_cols d); [congruence|discriminate H3]]. cbn [bind].
  assert (HC : (match jc with JList l => l | x => [x] end) = map column_json (td_cols d)) by (destruct jc; cbn in H3; try tauto; congruence).
  rewrite HC. destruct (create_columns E fresh enc (map column_json (td_cols d)) [] 0) as [[[ds kv] i]|e]; [|reflexivity]. cbn [bind CreateModel.get].
  match goal with |- bind ?x _ = _ => set (cl := x) end.
  assert (CL : cl = Ok (map constr_json (td_cons d))).
  { subst cl. destruct (dget ct (u "constraint")) as [x|]; cbn [listed] in H4; [destruct x; try tauto; cbn [iter]; congruence|congruence]. }
  rewrite CL. cbn [bind]. destruct (mapM (fun c => constraint_key c kv meta) (map constr_json (td_cons d))) as [ks|e]; [|reflexivity]. cbn [bind]. reflexivity.
Qed.

(** ** Constraints *)
Lemma key_get {V} (d : dict V) k : In k (dkeys d) -> exists v, dget d k = Some v.
Proof. intros H. destruct (dget d k) as [v|] eqn:G; [now exists v|]. apply dget_None in G. contradiction. Qed.
Lemma names_are cs : names_of (names_json cs) cs.
Proof. unfold names_json. destruct cs as [|c [|c' l]]; [now left|right; exists c; now split|now left]. Qed.
Lemma key_of_column enc cols kv : Forall2 (fun c kc => col_meta enc c (snd kc)) cols kv -> dkeys kv = map cl_name cols ->
  forall k, In k (map cl_name cols) -> exists n, key_column kv k n.
Proof.
  intros F K k I0. rewrite <- K in I0. apply key_get in I0. destruct I0 as (m & G). pose proof (dget_In _ _ _ G) as I1. destruct (Forall2_In_r _ _ _ F _ I1) as (c & _ & _ & _ & M). cbn [snd] in M.
  destruct (dget enc (cl_name c)) as [o|].
  - destruct M as (P & _ & W). assert (S0 : In SYM (dkeys (c_enc m))) by (rewrite W; unfold wanted_parts, base_parts; destruct (smem _ _); cbn; tauto).
    apply key_get in S0. destruct S0 as (n & N). exists n, m. split; [exact G|]. now rewrite P.
  - exists k, m. split; [exact G|]. now rewrite M.
Qed.
Lemma keys_found cols ks : (forall k, In k ks -> exists n, key_column cols k n) -> exists ns, Forall2 (key_column cols) ks ns.
Proof.
  induction ks as [|k ks IH]; intros H; [exists []; constructor|]. destruct (H k (or_introl eq_refl)) as (n & N). destruct IH as (ns & F); [intros k' I0; apply H; now right|]. exists (n :: ns). now constructor.
Qed.
Lemma constr_success kv meta c : (forall k, In k (dkeys kv) -> exists n, key_column kv k n) -> takes_con (dkeys kv) meta c ->
  exists txt, constraint_key (constr_json c) kv meta = Ok txt /\ con_rewritten kv meta (constr_json c) txt.
Proof.
  intros KC T. destruct c as [o cs|o cs t rs|o un name cs]; [| |contradiction].
  - destruct (keys_found kv cs) as (ns & F); [intros k I0; now apply KC, T|]. eexists.
    assert (R : con_rewritten kv meta (primary_con o (names_json cs)) (con_text o ++ u "PRIMARY KEY(" ++ join (u ",") ns ++ u ")")) by (econstructor; [apply names_are|exact F]).
    split; [|exact R]. apply (con_rewritten_ok (primary_con o (names_json cs))); [|exact R]. left. exists o, (names_json cs), cs. split; [apply names_are|reflexivity].
  - destruct T as (IN & M & m & EM & Em & RK). destruct (keys_found kv cs) as (ns & F); [intros k I0; now apply KC, IN|]. destruct (keys_found (t_cols m) rs RK) as (rns & FR). eexists.
    assert (R : con_rewritten kv meta (foreign_con o (names_json cs) t (names_json rs) [])
      (con_text o ++ u "FOREIGN KEY(" ++ join (u ",") ns ++ u ") REFERENCES " ++ t_anon m ++ u "(" ++ join (u ",") rns ++ u ")"))
      by (econstructor; [apply names_are|apply names_are|exact EM|exact Em|exact F|exact FR]).
    split; [|exact R]. apply (con_rewritten_ok (foreign_con o (names_json cs) t (names_json rs) [])); [|exact R]. right. exists o, (names_json cs), cs, t, (names_json rs), rs, [].
    split; [apply names_are|]. split; [apply names_are|reflexivity].
Qed.

(** ** The text *)
Section Text.
Variables (uname : pystr -> option N) (more : pystr -> pystr -> res pystr) (ft : pystr -> bool).
Variables (E : env) (fresh : nat -> pystr) (anon : pystr) (meta : option dbmeta).
Lemma from_text text d enc : good_def d -> writes_def d text ->
  create_from_text uname more ft E fresh anon meta text enc = rewrite_table E fresh anon meta (def_json d) enc.
Proof. intros G W. unfold create_from_text. rewrite (create_parsed uname more ft d text G W). reflexivity. Qed.
Theorem text_to_table text d enc : good_def d -> writes_def d text -> NoDup (map cl_name (td_cols d)) -> Forall (takes enc) (td_cols d) ->
  Forall (takes_con (map cl_name (td_cols d)) meta) (td_cons d) ->
  exists cols ks,
    create_from_text uname more ft E fresh anon meta text enc =
      Ok (create_text anon (concat (map (fun x => col_decls (fst x) (snd (snd x))) (combine (td_cols d) cols))) ks (u ";"),
          td_name d, {| t_anon := anon; t_cols := cols; t_comment := None |}) /\
    dkeys cols = map cl_name (td_cols d) /\ Forall2 (fun c kc => col_meta enc c (snd kc)) (td_cols d) cols /\
    Forall2 (con_rewritten cols meta) (map constr_json (td_cons d)) ks.
Proof.
  intros G W ND T K. rewrite (from_text text d enc G W), table_eq by exact G. destruct G as (NE & GC & _).
  destruct (columns_success E fresh enc (td_cols d) [] 0 GC T ND) as (ds & cols & j & X & KC & -> & F). cbn [app] in X. rewrite X. cbn [bind].
  pose proof (key_of_column enc _ _ F KC) as KN. rewrite <- KC in KN, K.
  assert (KS : exists ks, mapM (fun c => constraint_key c cols meta) (map constr_json (td_cons d)) = Ok ks /\ Forall2 (con_rewritten cols meta) (map constr_json (td_cons d)) ks).
  { clear -K KN. induction K as [|c l H K IH]; [exists []; split; [reflexivity|constructor]|]. destruct (constr_success cols meta c KN H) as (txt & A & B). destruct IH as (ks & C & D0).
    exists (txt :: ks). cbn [map mapM]. rewrite A. cbn [bind]. rewrite C. split; [reflexivity|now constructor]. }
  destruct KS as (ks & MK & R). rewrite MK. cbn [bind]. exists cols, ks. now repeat split.
Qed.

(** ** What is rejected *)
Lemma columns_have E' fresh' enc : forall cols kv i ds kv' j, create_columns E' fresh' enc cols kv i = Ok (ds, kv', j) -> forall c, In c cols ->
  exists i' ds' n m j' a b, create_column E' fresh' enc c i' = Ok (ds', n, m, j') /\ ds = a ++ ds' ++ b.
Proof.
  induction cols as [|c0 cols IH]; intros kv i ds kv' j H c [].
  - subst c0. cbn [create_columns] in H. destruct (create_column E' fresh' enc c i) as [[[[ds1 n] m] j1]|] eqn:X; [|discriminate H]. cbn [bind] in H.
    destruct (create_columns E' fresh' enc cols (dset kv n m) j1) as [[[ds2 kv2] j2]|]; [|discriminate H]. cbn [bind] in H. injection H as <- _ _. exists i, ds1, n, m, j1, [], ds2. now split.
  - cbn [create_columns] in H. destruct (create_column E' fresh' enc c0 i) as [[[[ds1 n] m] j1]|] eqn:X; [|discriminate H]. cbn [bind] in H.
    destruct (create_columns E' fresh' enc cols (dset kv n m) j1) as [[[ds2 kv2] j2]|] eqn:Y; [|discriminate H]. cbn [bind] in H. injection H as <- _ _.
    destruct (IH _ _ _ _ _ Y c H0) as (i' & ds' & n' & m' & j' & a & b & A & ->). exists i', ds', n', m', j', (ds1 ++ a), b. split; [exact A|now rewrite <- app_assoc].
Qed.
Lemma text_column text d enc q n m c : good_def d -> writes_def d text -> create_from_text uname more ft E fresh anon meta text enc = Ok (q, n, m) -> In c (td_cols d) ->
  exists i ds' n' m' j a b ks, create_column E fresh enc (column_json c) i = Ok (ds', n', m', j) /\ q = create_text anon (a ++ ds' ++ b) ks (u ";").
Proof.
  intros G W H I0. rewrite (from_text text d enc G W), table_eq in H by exact G.
  destruct (create_columns E fresh enc (map column_json (td_cols d)) [] 0) as [[[ds kv] j]|] eqn:X; [|discriminate H]. cbn [bind] in H.
  destruct (mapM _ _) as [ks|]; [|discriminate H]. cbn [bind] in H. injection H as <- _ _.
  destruct (columns_have _ _ _ _ _ _ _ _ _ X (column_json c) (in_map _ _ _ I0)) as (i' & ds' & n' & m' & j' & a & b & A & ->). exists i', ds', n', m', j', a, b, ks. now split.
Qed.
Lemma default_get c v : NoDup (map opt_key (cl_opts c)) -> In (Default v) (cl_opts c) -> dget (col_dict c) (u "default") = Some (dflt_json v).
Proof.
  intros ND I0. rewrite col_get by discriminate. revert ND I0. induction (cl_opts c) as [|o os IH]; intros ND []; [subst o; reflexivity|].
  cbn [map] in ND. inversion_clear ND. destruct o; try (exact (IH H1 H)). exfalso. apply H0. exact (in_map opt_key _ _ H).
Qed.
Theorem default_rejected text d enc c k : good_def d -> writes_def d text -> In c (td_cols d) -> In (Default (DConst k)) (cl_opts c) -> k <> KInt 0 ->
  exists e, create_from_text uname more ft E fresh anon meta text enc = Err e.
Proof.
  intros G W I0 ID NZ. destruct (create_from_text uname more ft E fresh anon meta text enc) as [[[q n] m]|e] eqn:H; [|now exists e]. exfalso.
  destruct (text_column text d enc q n m c G W H I0) as (i & ds & n' & m' & j & a & b & ks & X & _). destruct G as (_ & GC & _). rewrite Forall_forall in GC. destruct (GC c I0) as (_ & ND & _).
  destruct (default_bad E fresh enc (col_dict c) (const_value k) i) as (e & Y).
  - now apply (default_get c (DConst k)).
  - destruct k as [z|s]; [|reflexivity]. cbn [const_value RewriteModel.truthy]. destruct (z =? 0) eqn:Z; [|reflexivity]. apply Z.eqb_eq in Z. subst. congruence.
  - destruct k; discriminate.
  - rewrite column_dict in X. congruence.
Qed.
Theorem index_rejected text d enc o un name cs : good_def d -> writes_def d text -> In (Index o un name cs) (td_cons d) ->
  exists e, create_from_text uname more ft E fresh anon meta text enc = Err e.
Proof.
  intros G W I0. rewrite (from_text text d enc G W). apply (create_fails _ _ _ _ _ _ _ _ _ (constr_json (Index o un name cs)) (def_create_of d G) (in_map _ _ _ I0)).
  intros kv. apply other_constraint; destruct o; reflexivity.
Qed.
Theorem encrypted_types text d enc q n m : good_def d -> writes_def d text -> create_from_text uname more ft E fresh anon meta text enc = Ok (q, n, m) ->
  forall c, In c (td_cols d) -> dget enc (cl_name c) <> None -> enc_type (cl_type c).
Proof.
  intros G W H c I0 NE. destruct (text_column text d enc q n m c G W H I0) as (i & ds & n' & m' & j & a & b & ks & X & _). clear H W.
  destruct G as (_ & GC & _). rewrite Forall_forall in GC. destruct (GC c I0) as (GT & _ & _). clear GC I0 a b ks q n m d text.
  rewrite column_dict in X. unfold create_column in X. unfold flag at 1 2 in X. cbn [CreateModel.get bind] in X.
  change (getitem (JDict (col_dict c)) (u "name")) with (Ok (JStr (cl_name c))) in X. cbn [bind as_str] in X.
  change (getitem (JDict (col_dict c)) (u "type")) with (Ok (type_json (cl_type c))) in X. cbn [bind] in X.
  destruct (nullable_text (JDict (col_dict c))) as [nul|]; [|discriminate X]. cbn [bind] in X.
  match type of X with bind ?y _ = _ => destruct y as [com|]; [|discriminate X] end. cbn [bind] in X.
  destruct (dget enc (cl_name c)) as [o|]; [|congruence]. destruct (cl_type c) as [w l un]. unfold type_json in X. cbn [CreateModel.items bind ty_unsigned ty_word ty_sizes] in X.
  destruct un; [discriminate X|]. cbn [app] in X. destruct (element_type (upper (u w))) as [parts|] eqn:EP; [|discriminate X].
  match type of X with bind ?y _ = _ => destruct y as [key|]; [|discriminate X] end. cbn [bind] in X.
  match type of X with bind ?y _ = _ => destruct y as [[[ds1 e1] i1]|] eqn:Y; [|discriminate X] end. clear X.
  assert (T : forall kv, In kv parts -> exists t, enc_type_text (u w) (sizes_json l) (snd kv) = Ok t).
  { clear -Y. revert i ds1 e1 i1 Y. induction parts as [|[k v] parts IH]; intros i ds1 e1 i1 Y kv []; cbn [enc_parts enc_types] in Y.
    - subst kv. destruct (default_text _ _); [|discriminate Y]. cbn [bind] in Y. cbn [snd]. destruct (enc_type_text (u w) (sizes_json l) v); [eexists; reflexivity|discriminate Y].
    - match type of Y with bind ?y _ = _ => destruct y; [|discriminate Y] end. cbn [bind] in Y. match type of Y with bind ?y _ = _ => destruct y as [[[? ?] ?]|] eqn:Y1; [|discriminate Y] end. exact (IH _ _ _ _ Y1 kv H). }
  split; [reflexivity|]. cbn [ty_word ty_sizes]. destruct GT as (GT & _). cbn [ty_word ty_sizes] in GT.
  assert (ONE : (length l <= 1)%nat \/ In w scaled_types) by (destruct GT as [(_ & L)|[S0|(_ & ->)]]; [now left|now right|left; cbn; lia]).
  assert (IW : In w ["int"; "float"; "double"; "char"; "varchar"]%string).
  { clear -GT EP. assert (A : In w (sized_types ++ scaled_types ++ DdlSpec.plain_types)) by (destruct GT as [(A & _)|[A|(A & _)]]; apply in_or_app; [now left|right|right]; apply in_or_app; [now left|now right]).
    clear GT. cbn [In app sized_types scaled_types DdlSpec.plain_types] in A. each A ltac:(idtac; first [discriminate EP | cbn [In]; tauto]). }
  cbn [In] in IW. each IW ltac:(idtac; injection EP as <-; specialize (T _ (or_introl eq_refl)); destruct T as (t & T); cbn [snd] in T; unfold enc_type_text in T; destruct ONE as [L|L]; [|cbn in L; intuition discriminate];
    destruct l as [|z [|z' l]]; [ | |cbn in L; lia]; cbn [sizes_json map some_json RewriteModel.truthy] in T;
    first [ left; split; [cbn; tauto|left; reflexivity] | destruct (z =? 0) eqn:Z; [apply Z.eqb_eq in Z; subst z; first [left; split; [cbn; tauto|right; reflexivity] | discriminate T] |
       first [discriminate T | right; split; [cbn; tauto|]; exists z; split; [reflexivity|]; destruct (z <? 0) eqn:L0; [discriminate T|lia]]] | discriminate T ]).
Qed.
(** A column that is not encrypted and unsigned is declared twice. *)
Theorem unsigned_twice text d enc q n m c : good_def d -> writes_def d text -> create_from_text uname more ft E fresh anon meta text enc = Ok (q, n, m) ->
  In c (td_cols d) -> ty_unsigned (cl_type c) = true -> exists ds ks, q = create_text anon ds ks (u ";") /\ ~ NoDup (map fst ds).
Proof.
  intros G W H I0 US. destruct (text_column text d enc q n m c G W H I0) as (i & ds & n' & m' & j & a & b & ks & X & EQ).
  assert (PL : dget enc (cl_name c) = None).
  { destruct (dget enc (cl_name c)) eqn:P; [|reflexivity]. destruct (encrypted_types text d enc q n m G W H c I0) as (U & _); [congruence|congruence]. }
  exists (a ++ ds ++ b), ks. split; [exact EQ|]. clear EQ W H.
  rewrite column_dict in X. unfold create_column in X. unfold flag at 1 2 in X. cbn [CreateModel.get bind] in X.
  change (getitem (JDict (col_dict c)) (u "name")) with (Ok (JStr (cl_name c))) in X. cbn [bind as_str] in X.
  change (getitem (JDict (col_dict c)) (u "type")) with (Ok (type_json (cl_type c))) in X. cbn [bind] in X.
  destruct (nullable_text (JDict (col_dict c))) as [nul|]; [|discriminate X]. cbn [bind] in X.
  match type of X with bind ?y _ = _ => destruct y as [com|]; [|discriminate X] end. cbn [bind] in X. rewrite PL in X. unfold type_json in X. rewrite US in X.
  cbn [CreateModel.items bind app CreateModel.plain_types] in X. destruct (default_text _ _) as [df|]; [|discriminate X]. cbn [bind] in X. injection X as <- _ _ _.
  rewrite !map_app. cbn [map fst]. intros N. apply NoDup_app_r in N. cbn [app] in N. inversion_clear N. apply H. now left.
Qed.
End Text.
(** A type with two sizes: Python's text of the list. *)
Theorem sizes_repr uname more ft E fresh anon meta text d enc q n m c : good_def d -> writes_def d text ->
  create_from_text uname more ft E fresh anon meta text enc = Ok (q, n, m) ->
  In c (td_cols d) -> dget enc (cl_name c) = None -> ty_unsigned (cl_type c) = false -> (2 <= length (ty_sizes (cl_type c)))%nat ->
  exists a b rest ks, q = create_text anon (a ++ (cl_name c, u (ty_word (cl_type c)) ++ u "(" ++ e_repr E (JList (map JInt (ty_sizes (cl_type c)))) ++ u ")" ++ rest) :: b) ks (u ";").
Proof.
  intros G W H I0 PL US L. destruct (text_column uname more ft E fresh anon meta text d enc q n m c G W H I0) as (i & ds & n' & m' & j & a & b & ks & X & ->). clear W H.
  destruct (create_column_ok _ _ _ _ _ _ _ _ _ _ _ _ (col_is_def c US) X) as (_ & (_ & _ & D) & _). rewrite PL in D. destruct D as (_ & _ & rest & ->).
  exists a, b, rest, ks. cbn [app]. do 5 f_equal. destruct (ty_sizes (cl_type c)) as [|z [|z' l]]; [cbn in L; lia|cbn in L; lia|]. cbn [sizes_json map some_json RewriteModel.truthy py_str]. now rewrite <- !app_assoc.
Qed.

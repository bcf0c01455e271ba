(** The JSON of a parsed CREATE TABLE statement. *)
From Coq Require Import String Ascii List Arith NArith ZArith QArith Bool Lia ZifyBool ZifyNat ZifyN.
From Verif Require Import Base BaseProof CryptoModel JsonModel RewriteModel SqlSpec EncSpec StmtSpec CreateSpec ScrubModel InfixModel OperModel OperSpec ValuesModel TextSpec
  LitModel LitSpec GramModel GramSpec GramSimProof GramTextProof GramLexProof GramStmtProof OperProof DdlSpec DdlProof.
Import ListNotations.

(** ** Normalised forms *)
Definition gathered (l : list (pystr * out)) (acc : list (pystr * list out)) : list (pystr * list out) := fold_left (fun a kv => add a (fst kv) [snd kv]) l acc.
Definition spread (bl : list (pystr * list out)) : list (pystr * out) := flat_map (fun b => map (fun v => (fst b, v)) (snd b)) bl.
Lemma dset_last {V} (d : dict V) k v w : ~ In k (dkeys d) -> dset (d ++ [(k, v)]) k w = d ++ [(k, w)].
Proof.
  induction d as [|[a b] d IH]; intros N; cbn [app dset]; [now rewrite (proj2 (seqb_eq _ _) eq_refl)|].
  destruct (seqb k a) eqn:E; [exfalso; apply N; left; symmetry; now apply seqb_eq|]. f_equal. apply IH. intros H. apply N. now right.
Qed.
Lemma dset_fresh {V} (d : dict V) k v : ~ In k (dkeys d) -> dset d k v = d ++ [(k, v)].
Proof.
  induction d as [|[a b] d IH]; intros N; cbn [app dset]; [reflexivity|].
  destruct (seqb k a) eqn:E; [exfalso; apply N; left; symmetry; now apply seqb_eq|]. f_equal. apply IH. intros H. apply N. now right.
Qed.
Lemma dget_last {V} (d : dict V) k v : ~ In k (dkeys d) -> dget (d ++ [(k, v)]) k = Some v.
Proof.
  induction d as [|[a b] d IH]; intros N; cbn [app dget]; [now rewrite (proj2 (seqb_eq _ _) eq_refl)|].
  destruct (seqb k a) eqn:E; [exfalso; apply N; left; symmetry; now apply seqb_eq|]. apply IH. intros H. apply N. now right.
Qed.
Lemma gather_more k vs : forall ws acc, ~ In k (dkeys acc) -> gathered (map (fun v => (k, v)) vs) (acc ++ [(k, ws)]) = acc ++ [(k, ws ++ vs)].
Proof.
  induction vs as [|v vs IH]; intros ws acc N; [now rewrite app_nil_r|]. unfold gathered. cbn [map fold_left fst snd]. unfold add. rewrite dget_last by exact N.
  rewrite dset_last by exact N. change (gathered (map (fun v => (k, v)) vs) (acc ++ [(k, ws ++ [v])]) = acc ++ [(k, ws ++ v :: vs)]). rewrite IH by exact N. now rewrite <- app_assoc.
Qed.
Lemma gather_spread bl : forall acc, NoDup (dkeys acc ++ dkeys bl) -> Forall (fun b => snd b <> []) bl -> gathered (spread bl) acc = acc ++ bl.
Proof.
  induction bl as [|[k [|v vs]] bl IH]; intros acc ND F; [symmetry; apply app_nil_r|inversion_clear F; cbn in *; congruence|]. inversion_clear F. clear H.
  assert (NI : ~ In k (dkeys acc)).
  { cbn [dkeys map fst] in ND. intros H. apply in_split in H. destruct H as (a & b & E). unfold dkeys in *. rewrite E in ND. rewrite <- app_assoc in ND. cbn [app] in ND.
    apply NoDup_remove_2 in ND. apply ND. apply in_or_app. right. apply in_or_app. right. now left. }
  unfold spread. cbn [flat_map fst snd map]. unfold gathered. cbn [app fold_left]. unfold add at 2. cbn [fst snd]. rewrite (proj2 (dget_None acc k) NI), (dset_fresh acc) by exact NI.
  rewrite fold_left_app. fold (gathered (map (fun v => (k, v)) vs) (acc ++ [(k, [v])])). rewrite gather_more by exact NI. cbn [app].
  fold (spread bl). fold (gathered (spread bl) (acc ++ [(k, v :: vs)])). rewrite IH; [now rewrite <- app_assoc| |assumption].
  unfold dkeys in *. rewrite map_app. cbn [map fst] in *. now rewrite <- app_assoc.
Qed.
Definition tok_outs (t : pv) : list (pystr * out) := match t with PRes n _ _ _ => if named n then [(n, scrub t)] else [] | _ => [] end.
Definition tok_ok (t : pv) : Prop := match t with PRes [] false _ _ => False | _ => True end.
Lemma items_fold toks : Forall tok_ok toks -> forall acc, fold_left item_step (map (fun t => (t, sem t)) toks) acc = gathered (flat_map tok_outs toks) acc.
Proof.
  induction 1 as [|t toks T F IH]; intros acc; [reflexivity|]. cbn [map fold_left flat_map]. unfold gathered. rewrite fold_left_app. fold (gathered (tok_outs t) acc).
  fold (gathered (flat_map tok_outs toks) (gathered (tok_outs t) acc)). rewrite IH. f_equal. destruct t as [| | | | | | | |n g b tk]; try reflexivity.
  unfold item_step. cbn [fst snd tok_outs]. destruct n as [|c n]; [|reflexivity]. cbn [named]. destruct g; [reflexivity|contradiction].
Qed.
Lemma scrub_blocks n g a toks bl : Forall tok_ok toks -> flat_map tok_outs toks = spread bl -> NoDup (dkeys bl) -> Forall (fun b => snd b <> []) bl ->
  truthy (PRes n g a toks) = true -> drop_null (map (fun b => (fst b, norm_list (snd b))) bl) <> [] ->
  scrub (PRes n g a toks) = ODict (drop_null (map (fun b => (fst b, norm_list (snd b))) bl)).
Proof.
  intros T E ND NE TR D. unfold scrub. cbn [sem]. unfold v_out. cbn [fst]. rewrite TR. rewrite items_fold by exact T. rewrite E.
  rewrite (gather_spread bl []) by assumption. cbn [app]. destruct (drop_null _); [congruence|reflexivity].
Qed.
Lemma drop_keep d : Forall (fun b => snd b <> ONone) d -> drop_null d = d.
Proof. induction 1 as [|[k v] d H F IH]; [reflexivity|]. cbn [snd] in H. rewrite drop_one by exact H. now f_equal. Qed.
(** One value for each name. *)
Definition each_one (l : list (pystr * out)) : list (pystr * list out) := map (fun kv => (fst kv, [snd kv])) l.
Lemma spread_one l : spread (each_one l) = l.
Proof. induction l as [|[k v] l IH]; [reflexivity|]. unfold spread in *. cbn [each_one map flat_map fst snd app]. f_equal. exact IH. Qed.
Lemma norm_one l : map (fun b => (fst b, norm_list (snd b))) (each_one l) = l.
Proof. unfold each_one. rewrite map_map. cbn [fst snd norm_list]. induction l as [|[k v] l IH]; [reflexivity|]. cbn [map fst snd]. now f_equal. Qed.
Lemma keys_one l : dkeys (each_one l) = map fst l.
Proof. unfold dkeys, each_one. now rewrite map_map. Qed.
Lemma spread_app a b : spread (a ++ b) = spread a ++ spread b.
Proof. apply flat_map_app. Qed.
Lemma one_nonempty l : Forall (fun b : pystr * list out => snd b <> []) (each_one l).
Proof. apply Forall_forall. intros b H. apply in_map_iff in H. destruct H as (x & <- & _). discriminate. Qed.

(** ** Types and options *)
Definition jmap (l : list (pystr * out)) : list (pystr * json) := map (fun kv => (fst kv, json_of (snd kv))) l.
Lemma json_dict d : json_of (ODict d) = JDict (jmap d). Proof. reflexivity. Qed.
Lemma type_word c : good_type c -> u (ty_word c) <> u "unsigned" /\ u (ty_word c) <> [].
Proof.
  intros (A & _). destruct c as [w l uns]. cbn [ty_word ty_sizes] in *. destruct A as [[A _]|[A|[A _]]]; cbn [In sized_types scaled_types plain_types] in A; each A ltac:(idtac; split; discriminate).
Qed.
Definition filled (args : out) : out := match args with ONone => ODict [] | a => a end.
Lemma type_out c : good_type c -> json_of (scrub (type_pv c)) = type_json c /\ scrub (type_pv c) <> ONone.
Proof.
  intros G. destruct (type_word c G) as (NU & _). unfold type_pv, type_call, type_json. destruct c as [w l uns]. cbn [ty_word ty_sizes ty_unsigned] in *. clear G.
  assert (A : json_of (filled (v_out (sem (PList (map PNum l))))) = sizes_json l).
  { change (v_out (sem (PList (map PNum l)))) with (norm_list (map scrub (map PNum l))). rewrite map_map. change (fun x => scrub (PNum x)) with ONum.
    destruct l as [|z [|z' l]]; [reflexivity|reflexivity|]. cbn [map norm_list filled json_of sizes_json some_json]. do 3 f_equal. rewrite map_map. reflexivity. }
  destruct uns.
  - change (scrub (PCall (u w) (PList (map PNum l)) [(u "unsigned", PList [flag_tok "unsigned" true])])) with
      (simple_op (u w) (v_out (sem (PList (map PNum l)))) [(u "unsigned", OBool true)]).
    unfold simple_op. rewrite dset_fresh by (intros [H|[]]; now apply NU). split; [|discriminate]. change (JDict [(u "unsigned", JBool true); (u w, json_of (filled (v_out (sem (PList (map PNum l))))))] = JDict ([(u "unsigned", JBool true)] ++ [(u w, sizes_json l)])). now rewrite A.
  - change (scrub (PCall (u w) (PList (map PNum l)) [])) with (simple_op (u w) (v_out (sem (PList (map PNum l)))) []).
    unfold simple_op. split; [|discriminate]. change (JDict [(u w, json_of (filled (v_out (sem (PList (map PNum l))))))] = JDict ([] ++ [(u w, sizes_json l)])). now rewrite A.
Qed.
Lemma dflt_out d : json_of (scrub (dflt_pv d)) = dflt_json d /\ scrub (dflt_pv d) <> ONone /\ nice (dflt_pv d).
Proof.
  destruct d as [|c|v]; cbn [dflt_pv dflt_json]; [now repeat split| |now repeat split]. destruct (const_json c) as (A & B & C). split; [|now split]. rewrite A. destruct c; reflexivity.
Qed.
Definition opt_out (o : copt) : pystr * out := (u (opt_key o), scrub (opt_pv o)).
Lemma opt_outs o : tok_outs (opt_pv o) = [opt_out o] /\ tok_ok (opt_pv o) /\ scrub (opt_pv o) <> ONone /\ json_of (scrub (opt_pv o)) = opt_json o.
Proof.
  destruct o as [| | | | |s|v|d]; try (split; [reflexivity|]; split; [exact I|]; split; [discriminate|reflexivity]).
  split; [reflexivity|]. split; [exact I|]. cbn [opt_pv opt_json]. destruct (dflt_out d) as (A & B & C). unfold named_tok. rewrite scrub_named by exact C. now split.
Qed.
Lemma NoDup_u l : NoDup l -> NoDup (map u l).
Proof.
  induction 1 as [|x l N ND IH]; cbn [map]; constructor; [|exact IH]. intros H. apply in_map_iff in H. destruct H as (y & E & Y). apply u_inj in E. now subst.
Qed.
Definition column_out (c : column) : list (pystr * out) :=
  (u "name", OText (cl_name c)) :: (u "type", scrub (type_pv (cl_type c))) :: map opt_out (cl_opts c).
Lemma opts_flat os : flat_map tok_outs (map opt_pv os) = map opt_out os.
Proof. induction os as [|o os IH]; [reflexivity|]. cbn [map flat_map]. rewrite IH. now rewrite (proj1 (opt_outs o)). Qed.
Lemma column_scrub c : good_column c -> scrub (column_pv c) = ODict (column_out c) /\ json_of (scrub (column_pv c)) = column_json c.
Proof.
  intros (GT & ND & _). destruct (type_out _ GT) as (TJ & TN).
  assert (S0 : scrub (column_pv c) = ODict (column_out c)).
  { assert (T0 : scrub (PRes (u "type") false false [type_pv (cl_type c)]) = scrub (type_pv (cl_type c))) by reflexivity.
    assert (D : drop_null (map (fun b => (fst b, norm_list (snd b))) (each_one (column_out c))) = column_out c).
    { rewrite norm_one. apply drop_keep. unfold column_out. constructor; [discriminate|]. constructor; [exact TN|].
      apply Forall_forall. intros x X. apply in_map_iff in X. destruct X as (o & <- & _). apply opt_outs. }
    rewrite <- D. unfold column_pv. apply scrub_blocks.
    - constructor; [exact I|]. constructor; [exact I|]. apply Forall_forall. intros x X. apply in_map_iff in X. destruct X as (o & <- & _). apply opt_outs.
    - rewrite spread_one. cbn [flat_map]. rewrite opts_flat. unfold column_out. cbn [tok_outs named_tok named]. cbn [app u named]. rewrite <- T0. reflexivity.
    - rewrite keys_one. unfold column_out. cbn [map fst]. rewrite map_map. cbn [opt_out fst]. change (map (fun x => u (opt_key x)) (cl_opts c)) with (map (fun x => u (opt_key x)) (cl_opts c)).
      rewrite <- (map_map opt_key u). assert (NO : forall s, (forall o, opt_key o <> s) -> ~ In (u s) (map u (map opt_key (cl_opts c)))).
      { intros s H X. apply in_map_iff in X. destruct X as (y & E & Y0). apply u_inj in E. subst y. apply in_map_iff in Y0. destruct Y0 as (o & E & _). now apply (H o). }
      constructor; [|constructor; [|now apply NoDup_u]].
      + intros [H|H]; [discriminate H|]. apply (NO "name"%string) in H; [exact H|]. intros []; discriminate.
      + intros H. apply (NO "type"%string) in H; [exact H|]. intros []; discriminate.
    - apply one_nonempty.
    - reflexivity.
    - rewrite D. discriminate. }
  split; [exact S0|]. rewrite S0. rewrite json_dict. unfold column_out, column_json, jmap. cbn [map fst snd json_of]. rewrite TJ. do 3 f_equal. rewrite map_map.
  apply map_ext. intros o. cbn [opt_out fst snd]. now rewrite (proj2 (proj2 (proj2 (opt_outs o)))).
Qed.

(** ** Constraints *)
Lemma names_outs cs : flat_map tok_outs (map (fun c => named_tok "columns" (PText c)) cs) = map (fun v => (u "columns", v)) (map OText cs).
Proof. induction cs as [|c cs IH]; [reflexivity|]. cbn [map flat_map]. rewrite IH. reflexivity. Qed.
Lemma names_tok cs : Forall tok_ok (map (fun c => named_tok "columns" (PText c)) cs).
Proof. apply Forall_forall. intros x X. apply in_map_iff in X. destruct X as (c & <- & _). exact I. Qed.
Lemma names_out cs : cs <> [] -> json_of (norm_list (map OText cs)) = names_json cs /\ norm_list (map OText cs) <> ONone.
Proof.
  intros NE. rewrite json_list. unfold names_json. destruct cs as [|c [|c' cs]]; [congruence|split; [reflexivity|discriminate]|]. split; [|discriminate]. cbn [map some_json].
  do 3 f_equal. rewrite map_map. reflexivity.
Qed.
Local Ltac nodup := repeat (apply NoDup_cons; [let X := fresh in intros X; vm_compute in X; intuition discriminate|]); apply NoDup_nil.
Lemma index_tokens (pre : list pv) bl n cs : Forall tok_ok pre -> flat_map tok_outs pre = spread bl -> Forall (fun b => snd b <> []) bl -> cs <> [] ->
  NoDup (dkeys bl ++ [u "columns"; u "table_constraint_options"]) ->
  scrub (PRes n false false (pre ++ index_pv cs)) = ODict (drop_null (map (fun b => (fst b, norm_list (snd b))) bl) ++ [(u "columns", norm_list (map OText cs))]).
Proof.
  intros T E F NE ND. set (bl' := bl ++ [(u "columns", map OText cs); (u "table_constraint_options", [ONone])]).
  assert (D : drop_null (map (fun b => (fst b, norm_list (snd b))) bl') = drop_null (map (fun b => (fst b, norm_list (snd b))) bl) ++ [(u "columns", norm_list (map OText cs))]).
  { subst bl'. rewrite map_app, drop_app. f_equal. cbn [map fst snd]. rewrite drop_one by (now apply names_out). reflexivity. }
  rewrite <- D. apply scrub_blocks.
  - apply Forall_app. split; [exact T|]. apply Forall_app. split; [apply names_tok|]. constructor; [exact I|constructor].
  - unfold bl'. rewrite flat_map_app, spread_app, E. f_equal. unfold index_pv. rewrite flat_map_app, names_outs. unfold spread. cbn [flat_map fst snd map]. now rewrite ?app_nil_r.
  - unfold bl', dkeys. rewrite map_app. exact ND.
  - apply Forall_app. split; [exact F|]. constructor; [destruct cs; [congruence|discriminate]|]. constructor; [discriminate|constructor].
  - cbn [truthy]. rewrite existsb_app. apply orb_true_iff. right. destruct cs; [congruence|reflexivity].
  - rewrite D. intros X. apply app_eq_nil in X. destruct X as [_ X]. discriminate X.
Qed.
Definition body_key (c : constr) : string := match c with Primary _ _ => "primary_key" | Foreign _ _ _ _ => "foreign_key" | Index _ _ _ _ => "index" end.
Definition body_json (c : constr) : json :=
  match c with
  | Primary _ cs => JDict [(u "columns", names_json cs)]
  | Foreign _ cs t rs => JDict [(u "columns", names_json cs); (u "references", JDict [(u "table", JStr t); (u "columns", names_json rs)])]
  | Index _ un name cs => JDict ((if un then [(u "unique", JBool true)] else []) ++ con_name name ++ [(u "columns", names_json cs)])
  end.
Lemma body_out c : con_columns c -> json_of (scrub (constr_body c)) = body_json c /\ scrub (constr_body c) <> ONone.
Proof.
  destruct c as [o cs|o cs t rs|o un name cs]; cbn [con_columns constr_body body_json].
  - intros NE. assert (E : scrub (PRes (u "primary_key") false false ([] ++ index_pv cs)) = ODict [(u "columns", norm_list (map OText cs))]).
    { apply (index_tokens [] []); [constructor|reflexivity|constructor|exact NE|cbn; nodup]. }
    cbn [app] in E. rewrite E. split; [|discriminate]. cbn [json_of map fst snd]. now rewrite (proj1 (names_out cs NE)).
  - intros (NE & NR). set (R := PRes (u "references") false false [named_tok "table" (PText t); PRes (u "columns") false false (map PText rs)]).
    assert (ER : scrub R = ODict [(u "table", OText t); (u "columns", norm_list (map OText rs))]).
    { assert (D : drop_null (map (fun b => (fst b, norm_list (snd b))) (each_one [(u "table", OText t); (u "columns", norm_list (map OText rs))])) = [(u "table", OText t); (u "columns", norm_list (map OText rs))]).
      { rewrite norm_one. apply drop_keep. constructor; [discriminate|]. constructor; [now apply names_out|constructor]. }
      rewrite <- D. apply scrub_blocks.
      - constructor; [exact I|]. constructor; [exact I|constructor].
      - rewrite spread_one. cbn [flat_map tok_outs named_tok]. rewrite (scrub_names (u "columns") rs NR). reflexivity.
      - rewrite keys_one. cbn [map fst]. nodup.
      - apply one_nonempty.
      - reflexivity.
      - rewrite D. discriminate. }
    assert (E : scrub (PRes (u "foreign_key") false false (PRes [] true false [] :: map (fun c => named_tok "columns" (PText c)) cs ++ [R])) =
      ODict [(u "columns", norm_list (map OText cs)); (u "references", scrub R)]).
    { assert (D : drop_null (map (fun b => (fst b, norm_list (snd b))) [(u "columns", map OText cs); (u "references", [scrub R])]) = [(u "columns", norm_list (map OText cs)); (u "references", scrub R)]).
      { cbn [map fst snd norm_list]. apply drop_keep. constructor; [now apply names_out|]. constructor; [cbn [snd]; rewrite ER; discriminate|constructor]. }
      rewrite <- D. apply scrub_blocks.
      - constructor; [exact I|]. apply Forall_app. split; [apply names_tok|]. constructor; [exact I|constructor].
      - cbn [flat_map]. rewrite flat_map_app, names_outs. reflexivity.
      - cbn [dkeys map fst]. nodup.
      - constructor; [destruct cs; [congruence|discriminate]|]. constructor; [discriminate|constructor].
      - reflexivity.
      - rewrite D. discriminate. }
    rewrite E, ER. split; [|discriminate]. cbn [json_of map fst snd]. now rewrite (proj1 (names_out cs NE)), (proj1 (names_out rs NR)).
  - intros NE. set (pre := (if un then [flag_tok "unique" true] else []) ++ named_opt "name" name).
    set (bl := (if un then [(u "unique", [OBool true])] else []) ++ match name with Some v => [(u "name", [OText v])] | None => [] end).
    assert (E : scrub (PRes (u "index") false false (pre ++ index_pv cs)) = ODict (drop_null (map (fun b => (fst b, norm_list (snd b))) bl) ++ [(u "columns", norm_list (map OText cs))])).
    { apply index_tokens.
      - subst pre. destruct un, name; repeat constructor.
      - subst pre bl. destruct un, name; reflexivity.
      - subst bl. destruct un, name; repeat constructor; discriminate.
      - exact NE.
      - subst bl. destruct un, name; cbn; nodup. }
    rewrite app_assoc. fold pre. rewrite E. split; [|discriminate]. subst bl. destruct un, name as [v|]; cbn [app map fst snd drop_null filter norm_list not_null json_of con_name]; now rewrite (proj1 (names_out cs NE)).
Qed.
Definition constr_out (c : constr) : list (pystr * out) :=
  match constr_name c with Some v => [(u "name", OText v)] | None => [] end ++ [(u (body_key c), scrub (constr_body c))].
Lemma constr_scrub c : con_columns c -> scrub (constr_pv c) <> ONone /\ json_of (scrub (constr_pv c)) = constr_json c.
Proof.
  intros G. destruct (body_out c G) as (BJ & BN).
  assert (TB : tok_outs (constr_body c) = [(u (body_key c), scrub (constr_body c))] /\ tok_ok (constr_body c)) by (destruct c; split; try reflexivity; exact I).
  assert (S0 : scrub (constr_pv c) = ODict (constr_out c)).
  { assert (D : drop_null (map (fun b => (fst b, norm_list (snd b))) (each_one (constr_out c))) = constr_out c).
    { rewrite norm_one. apply drop_keep. apply Forall_app. split; [destruct (constr_name c); repeat constructor; discriminate|]. constructor; [exact BN|constructor]. }
    rewrite <- D. apply scrub_blocks.
    - apply Forall_app. split; [destruct (constr_name c); repeat constructor|]. constructor; [apply TB|constructor].
    - rewrite spread_one, flat_map_app. cbn [flat_map]. rewrite app_nil_r. rewrite (proj1 TB). unfold constr_out. f_equal. destruct (constr_name c); reflexivity.
    - rewrite keys_one. unfold constr_out. rewrite map_app. cbn [map fst]. destruct c as [[v|] cs|[v|] cs t rs|[v|] un name cs]; cbn [constr_name body_key map fst app]; nodup.
    - apply one_nonempty.
    - destruct c as [[v|] cs|[v|] cs t rs|[v|] un name cs]; reflexivity.
    - rewrite D. unfold constr_out. destruct (constr_name c); discriminate. }
  rewrite S0. split; [discriminate|]. rewrite json_dict. unfold constr_out, jmap. rewrite map_app. cbn [map fst snd]. rewrite BJ.
  destruct c as [[v|] cs|[v|] cs t rs|[v|] un name cs]; reflexivity.
Qed.

(** ** The statement *)
Definition topt_out (o : topt) : pystr * out := (u (topt_key o), scrub (topt_pv o)).
Lemma topt_outs o : tok_outs (topt_pv o) = [topt_out o] /\ tok_ok (topt_pv o) /\ scrub (topt_pv o) <> ONone /\ json_of (scrub (topt_pv o)) = topt_json o.
Proof. destruct o; (split; [reflexivity|]; split; [exact I|]; split; [discriminate|reflexivity]). Qed.
Lemma topts_flat os : flat_map tok_outs (map topt_pv os) = map topt_out os.
Proof. induction os as [|o os IH]; [reflexivity|]. cbn [map flat_map]. rewrite IH. now rewrite (proj1 (topt_outs o)). Qed.
Lemma named_outs {A} (f : A -> pv) nm l : (forall a, exists g b t, f a = PRes (u nm) g b t) -> u nm <> [] -> flat_map tok_outs (map f l) = map (fun v => (u nm, v)) (map (fun a => scrub (f a)) l).
Proof.
  intros H NE. induction l as [|a l IH]; [reflexivity|]. cbn [map flat_map]. rewrite IH. destruct (H a) as (g & b & t & E). rewrite E. cbn [tok_outs].
  destruct (u nm); [congruence|]. reflexivity.
Qed.
Definition def_blocks (d : table_def) : list (pystr * list out) :=
  (if td_guard d then [(u "replace", [OBool false])] else []) ++
  (u "name", [OText (td_name d)]) :: (u "columns", map (fun c => scrub (column_pv c)) (td_cols d)) ::
  match td_cons d with [] => [] | l => [(u "constraint", map (fun c => scrub (constr_pv c)) l)] end ++
  each_one (map topt_out (td_opts d)).
Lemma some_norm {A} (f : A -> out) (g : A -> json) l : l <> [] -> (forall a, In a l -> f a <> ONone /\ json_of (f a) = g a) ->
  norm_list (map f l) <> ONone /\ json_of (norm_list (map f l)) = some_json (map g l).
Proof.
  intros NE H. assert (M : map json_of (map f l) = map g l).
  { rewrite map_map. apply map_ext_in. intros a A0. now apply H. }
  rewrite json_list. destruct l as [|a [|b l]]; [congruence| |].
  - cbn [map norm_list some_json]. apply H. now left.
  - split; [discriminate|]. cbn [map] in *. rewrite M. reflexivity.
Qed.
Lemma NoDup_app3 (a b : list pystr) : NoDup a -> NoDup b -> (forall x, In x a -> ~ In x b) -> NoDup (a ++ b).
Proof.
  induction 1 as [|x a N ND IH]; intros B D; [exact B|]. cbn [app]. constructor.
  - intros X. apply in_app_or in X. destruct X as [X|X]; [contradiction|]. apply (D x); [now left|exact X].
  - apply IH; [exact B|]. intros y Y0. apply D. now right.
Qed.
Theorem def_scrub d : good_def d -> json_of (scrub (def_pv d)) = def_json d.
Proof.
  intros (NE & GC & GK & ND). rewrite Forall_forall in GC, GK.
  set (toks := PText (u "create") :: (if td_guard d then [flag_tok "replace" false] else []) ++
     named_tok "name" (PText (td_name d)) :: (map column_pv (td_cols d) ++ map constr_pv (td_cons d)) ++ map topt_pv (td_opts d)).
  destruct (some_norm (fun c => scrub (column_pv c)) column_json (td_cols d) NE) as (CN & CJ).
  { intros c I0. destruct (column_scrub c (GC c I0)) as (A & B). split; [rewrite A; discriminate|exact B]. }
  assert (KJ : td_cons d <> [] -> norm_list (map (fun c => scrub (constr_pv c)) (td_cons d)) <> ONone /\
    json_of (norm_list (map (fun c => scrub (constr_pv c)) (td_cons d))) = some_json (map constr_json (td_cons d))).
  { intros NK. apply some_norm; [exact NK|]. intros c I0. apply constr_scrub. now apply GK. }
  assert (D : drop_null (map (fun b => (fst b, norm_list (snd b))) (def_blocks d)) =
    (if td_guard d then [(u "replace", OBool false)] else []) ++ (u "name", OText (td_name d)) :: (u "columns", norm_list (map (fun c => scrub (column_pv c)) (td_cols d))) ::
    match td_cons d with [] => [] | l => [(u "constraint", norm_list (map (fun c => scrub (constr_pv c)) l))] end ++ map topt_out (td_opts d)).
  { unfold def_blocks. rewrite map_app, drop_app. f_equal; [destruct (td_guard d); reflexivity|]. cbn [map fst snd norm_list]. rewrite drop_one by discriminate. f_equal.
    rewrite drop_one by exact CN. f_equal. rewrite map_app, drop_app, norm_one. f_equal.
    - destruct (td_cons d) as [|c l]; [reflexivity|]. cbn [map fst snd]. apply drop_one. apply KJ. discriminate.
    - apply drop_keep. apply Forall_forall. intros x X. apply in_map_iff in X. destruct X as (o & <- & _). apply topt_outs. }
  assert (S0 : scrub (PRes (u "create table") false false toks) = ODict (drop_null (map (fun b => (fst b, norm_list (snd b))) (def_blocks d)))).
  { apply scrub_blocks.
    - constructor; [exact I|]. apply Forall_app. split; [destruct (td_guard d); repeat constructor|]. constructor; [exact I|]. apply Forall_app. split; [apply Forall_app; split|].
      + apply Forall_forall. intros x X. apply in_map_iff in X. destruct X as (o & <- & _). exact I.
      + apply Forall_forall. intros x X. apply in_map_iff in X. destruct X as (o & <- & _). exact I.
      + apply Forall_forall. intros x X. apply in_map_iff in X. destruct X as (o & <- & _). apply topt_outs.
    - subst toks. cbn [flat_map tok_outs app]. rewrite flat_map_app. unfold def_blocks. rewrite spread_app. f_equal; [destruct (td_guard d); reflexivity|]. cbn [flat_map tok_outs named_tok].
      rewrite !flat_map_app. rewrite (named_outs column_pv "columns") by (first [discriminate|intros a; eexists _, _, _; reflexivity]).
      rewrite (named_outs constr_pv "constraint") by (first [discriminate|intros a; eexists _, _, _; reflexivity]).
      pose proof (topts_flat (td_opts d)) as O0.
      rewrite O0. unfold spread at 1. cbn [flat_map fst snd map]. change (flat_map (fun b => map (fun v => (fst b, v)) (snd b))) with spread. rewrite spread_app, spread_one. cbn [app named u]. f_equal.
      rewrite <- app_assoc. f_equal. f_equal. destruct (td_cons d); [reflexivity|]. unfold spread. cbn [flat_map fst snd]. now rewrite app_nil_r.
    - unfold def_blocks, dkeys. rewrite map_app. cbn [map fst]. rewrite map_app. fold (dkeys (each_one (map topt_out (td_opts d)))). rewrite keys_one, map_map. cbn [topt_out fst].
      rewrite <- (map_map topt_key u). rewrite app_comm_cons, app_comm_cons, app_assoc. apply NoDup_app3.
      + destruct (td_guard d), (td_cons d); cbn [app map fst]; nodup.
      + now apply NoDup_u.
      + intros x X Y0. apply in_map_iff in Y0. destruct Y0 as (s & <- & Y0). apply in_map_iff in Y0. destruct Y0 as (o & <- & _).
        destruct (td_guard d), (td_cons d), o; vm_compute in X; intuition discriminate.
    - unfold def_blocks. apply Forall_app. split; [destruct (td_guard d); repeat constructor; discriminate|]. constructor; [discriminate|]. constructor; [destruct (td_cols d); [congruence|discriminate]|].
      apply Forall_app. split; [destruct (td_cons d); repeat constructor; discriminate|apply one_nonempty].
    - reflexivity.
    - rewrite D. destruct (td_guard d); discriminate. }
  assert (S1 : scrub (def_pv d) = ODict [(u "create table", scrub (PRes (u "create table") false false toks))]).
  { unfold def_pv. fold toks. rewrite (scrub_blocks [] false false [PRes (u "create table") false false toks] (each_one [(u "create table", scrub (PRes (u "create table") false false toks))])).
    - rewrite norm_one. apply f_equal. apply drop_keep. constructor; [cbn [snd]; rewrite S0; discriminate|constructor].
    - constructor; [exact I|constructor].
    - rewrite spread_one. reflexivity.
    - cbn. nodup.
    - apply one_nonempty.
    - reflexivity.
    - rewrite norm_one, drop_one by (rewrite S0; discriminate). discriminate. }
  rewrite S1, S0, D. unfold def_json. cbn [json_of map fst snd]. do 4 f_equal. rewrite map_app. f_equal; [destruct (td_guard d); reflexivity|].
  cbn [map fst snd json_of]. rewrite CJ. do 2 f_equal. rewrite map_app. f_equal.
  - destruct (td_cons d) as [|c l]; [reflexivity|]. destruct (KJ ltac:(discriminate)) as (_ & KE). change ([(u "constraint", json_of (norm_list (map (fun c => scrub (constr_pv c)) (c :: l))))] = [(u "constraint", some_json (map constr_json (c :: l)))]). now rewrite KE.
  - rewrite map_map. apply map_ext. intros o. cbn [topt_out fst snd]. now rewrite (proj2 (proj2 (proj2 (topt_outs o)))).
Qed.

(** ** The text *)
Theorem create_parsed uname more ft d text : good_def d -> writes_def d text -> parse_create uname more ft text = Ok (def_json d).
Proof.
  intros G (ls & D & S0). unfold parse_create. rewrite (text_of_parts uname more ft ls text (def_pv d) S0).
  - cbn [bind]. now rewrite def_scrub.
  - destruct D. discriminate.
  - intros k L. now apply whole_create.
Qed.

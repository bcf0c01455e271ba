(** A statement in its parsed form and the same statement as read from a text are executed alike. *)
From Coq Require Import String Ascii List Arith NArith ZArith QArith Bool Lia ZifyBool ZifyNat ZifyN.
From Verif Require Import Base BaseProof CryptoModel FuzzyModel JsonModel RewriteModel LikeSpec SqlSpec EncSpec StmtSpec SimProof StmtProof
  SelectProof SqlLex SqlRead FmtModel FmtSpec ScrubModel OperModel OperSpec EndSpec TextSpec.
Import ListNotations.
Open Scope Z_scope.

Notation kw := is_keyword.
Definition colp (c : pystr) : Prop := is_column kw c = true.

(** Items, conditions, order and limits. *)
Inductive irep : json -> items -> Prop :=
| ir_all : irep (JStr (u "*")) IAll
| ir_one c : colp c -> irep (val (JStr c)) (ICols [c])
| ir_vals l : Forall colp l -> irep (JList (map (fun c => val (JStr c)) l)) (ICols l)
| ir_strs l : Forall colp l -> irep (JList (map JStr l)) (ICols l)
| ir_count : irep (val (JDict [(u "count", JStr (u "*"))])) ICount
| ir_ext (mx : bool) c : colp c -> irep (val (JDict [(if mx then u "max" else u "min", JStr c)])) (IExtreme mx c).
Inductive wrep : option json -> option tree -> Prop :=
| wr_none : wrep None None
| wr_some j t : (forall r, cond kw r j = truth r t) -> wrep (Some j) (Some t).
Inductive orep : option json -> option (pystr * bool) -> Prop :=
| or_none : orep None None
| or_some o : colp (fst o) -> orep (Some (order_json o)) (Some o).
Definition lim_json (lim : option (N * option N)) : option json := option_map (fun l => count_json (fst l)) lim.
Definition off_json (lim : option (N * option N)) : option json := match lim with Some (_, Some k) => Some (count_json k) | _ => None end.
Inductive stm : pystr -> json -> cmd tree -> Prop :=
| st_select t sel i w q o oq lim : irep sel i -> wrep w q -> orep o oq ->
    stm t (select_stmt t sel w o (lim_json lim) (off_json lim)) (Select i t q oq lim)
| st_insert t cs js ks : Forall colp cs -> Forall2 (fun j k => insert_const kw j = Ok (cval k)) js ks ->
    stm t (JDict [(u "insert", JStr t); (u "columns", JList (map JStr cs)); (u "query", JDict [(u "select", JList js)])]) (Insert t cs ks)
| st_update t a b w q : Forall2 (fun x y => fst x = fst y /\ colp (fst y) /\ forall r, operand kw r (snd x) = Ok (cval (snd y))) a b -> wrep w q ->
    stm t (update_stmt t a w) (Update t b q)
| st_delete t w q : wrep w q -> stm t (delete_stmt t w) (Delete t q).

Lemma selected_keeps w q r : wrep w q -> selected kw w r = keeps q r.
Proof. intros [|j t H]; [reflexivity|]. cbn [selected keeps]. now rewrite H. Qed.
Lemma filterM_ext {A} (f g : A -> res bool) l : (forall x, f x = g x) -> filterM f l = filterM g l.
Proof. intros H. induction l as [|x l IH]; [reflexivity|]. cbn [filterM]. now rewrite H, IH. Qed.
Lemma mapM_ext {A B} (f g : A -> res B) l : (forall x, In x l -> f x = g x) -> mapM f l = mapM g l.
Proof.
  induction l as [|x l IH]; intros H; [reflexivity|]. cbn [mapM]. rewrite H by now left. rewrite IH; [reflexivity|]. intros y Y. apply H. now right.
Qed.
Lemma mapM_map {A B C} (f : B -> res C) (g : A -> B) l : mapM f (map g l) = mapM (fun x => f (g x)) l.
Proof. induction l as [|x l IH]; [reflexivity|]. cbn [map mapM]. now rewrite IH. Qed.
Lemma count_ok n : count_of (count_json n) = Ok (N.to_nat n).
Proof. unfold count_json, count_of. replace (0 <=? Z.of_N n) with true by lia. f_equal. lia. Qed.
Lemma limit_cut {A} lim (l : list A) : limit_rows (off_json lim) (lim_json lim) l = Ok (cut lim l).
Proof.
  destruct lim as [[n [k|]]|]; unfold limit_rows; cbn [off_json lim_json option_map fst]; rewrite ?count_ok; cbn [bind]; rewrite ?count_ok; reflexivity.
Qed.
Lemma order_sorted o oq rows : orep o oq -> order_rows kw o rows = sorted oq rows.
Proof.
  intros [|[c [|]] H]; [reflexivity| |]; unfold colp in H; cbn [fst] in H; cbn [order_json fst snd order_rows sorted].
  - change (seqb (u "value") (u "value") && seqb (u "sort") (u "sort")) with true. rewrite H. cbn [andb].
    change (seqb (u "desc") (u "desc")) with true. reflexivity.
  - change (seqb (u "value") (u "value")) with true. rewrite H. reflexivity.
Qed.
Lemma operand_field r c : colp c -> operand kw r (JStr c) = field r c.
Proof. unfold colp, field. intros H. cbn [operand]. now rewrite H. Qed.
Lemma project_field r c : colp c -> project kw r (JStr c) = field r c.
Proof. intros H. rewrite project_str. now apply operand_field. Qed.
Lemma projectv_field r c : colp c -> project kw r (val (JStr c)) = field r c.
Proof. intros H. rewrite project_val. now apply operand_field. Qed.

Lemma select_obey tb sel i w q o oq lim : irep sel i -> wrep w q -> orep o oq -> Forall colp (tb_cols tb) ->
  exec_select kw tb sel w o (lim_json lim) (off_json lim) = do rows <- filterM (keeps q) (tb_rows tb); returned tb i oq lim rows.
Proof.
  intros HI HW HO HC. unfold exec_select. rewrite (filterM_ext _ (keeps q)) by (intros r; now apply selected_keeps).
  destruct (filterM (keeps q) (tb_rows tb)) as [rows|]; [|reflexivity]. cbn [bind].
  destruct HI as [|c H|l H|l H| |mx c H].
  - change (aggregate kw rows (JStr (u "*"))) with (@None (res sqlv)). cbv iota. rewrite (order_sorted o oq) by assumption. cbn [returned].
    destruct (sorted oq rows) as [rs|]; [|reflexivity]. cbn [bind]. rewrite limit_cut. cbn [bind].
    change (seqb (u "*") (u "*")) with true. cbv iota. apply mapM_ext. intros r _. rewrite mapM_map. apply mapM_ext. intros c C.
    apply project_field. rewrite Forall_forall in HC. auto.
  - rewrite aggregate_val. rewrite (order_sorted o oq) by assumption. cbn [returned].
    destruct (sorted oq rows) as [rs|]; [|reflexivity]. cbn [bind]. rewrite limit_cut. cbn [bind].
    apply mapM_ext. intros r _. cbn [mapM val]. change (JDict [(u "value", JStr c)]) with (val (JStr c)). now rewrite projectv_field.
  - change (aggregate kw rows (JList (map (fun c => val (JStr c)) l))) with (@None (res sqlv)). cbv iota. rewrite (order_sorted o oq) by assumption. cbn [returned].
    destruct (sorted oq rows) as [rs|]; [|reflexivity]. cbn [bind]. rewrite limit_cut. cbn [bind].
    apply mapM_ext. intros r _. rewrite mapM_map. apply mapM_ext. intros c C. apply projectv_field. rewrite Forall_forall in H. auto.
  - change (aggregate kw rows (JList (map JStr l))) with (@None (res sqlv)). cbv iota. rewrite (order_sorted o oq) by assumption. cbn [returned].
    destruct (sorted oq rows) as [rs|]; [|reflexivity]. cbn [bind]. rewrite limit_cut. cbn [bind].
    apply mapM_ext. intros r _. rewrite mapM_map. apply mapM_ext. intros c C. apply project_field. rewrite Forall_forall in H. auto.
  - change (aggregate kw rows (val (JDict [(u "count", JStr (u "*"))]))) with (Some (Ok (VInt (Z.of_nat (length rows))))). cbv iota. cbn [bind].
    apply limit_cut.
  - cbn [returned]. assert (X : mapM (fun r => operand kw r (JStr c)) rows = mapM (fun r => field r c) rows) by (apply mapM_ext; intros r _; now apply operand_field).
    destruct mx.
    + change (aggregate kw rows (val (JDict [(u "max", JStr c)]))) with
        (if seqb (u "max") (u "count") && seqb c (u "*") then Some (Ok (VInt (Z.of_nat (length rows)))) else Some (do l <- mapM (fun r => operand kw r (JStr c)) rows; Ok (extreme (fun a b => vle b a) l))).
      change (seqb (u "max") (u "count")) with false. cbn [andb]. cbv iota. rewrite X. clear X. destruct (mapM (fun r => field r c) rows) as [vs|]; [|reflexivity]. cbn [bind]. apply limit_cut.
    + change (aggregate kw rows (val (JDict [(u "min", JStr c)]))) with
        (if seqb (u "min") (u "count") && seqb c (u "*") then Some (Ok (VInt (Z.of_nat (length rows)))) else Some (do l <- mapM (fun r => operand kw r (JStr c)) rows; Ok (extreme vle l))).
      change (seqb (u "min") (u "count")) with false. cbn [andb]. cbv iota. rewrite X. clear X. destruct (mapM (fun r => field r c) rows) as [vs|]; [|reflexivity]. cbn [bind]. apply limit_cut.
Qed.

Lemma insert_consts js ks : Forall2 (fun j k => insert_const kw j = Ok (cval k)) js ks -> mapM (insert_const kw) js = Ok (map cval ks).
Proof. induction 1 as [|j k js ks H F IH]; [reflexivity|]. cbn [mapM map]. now rewrite H, IH. Qed.
Lemma assoc_row_bad cs (vs : list sqlv) : length cs <> length vs -> assoc_row (map JStr cs) vs = Err DbError.
Proof.
  revert vs. induction cs as [|c cs IH]; intros [|v vs] L; cbn [length map assoc_row] in *; try reflexivity; [congruence|].
  rewrite IH by lia. reflexivity.
Qed.
Lemma insert_obey tb cs js ks : Forall colp cs -> Forall2 (fun j k => insert_const kw j = Ok (cval k)) js ks ->
  exec_insert kw tb (map JStr cs) js =
  if Nat.eqb (length cs) (length ks) && forallb (fun c => smem c (tb_cols tb)) cs
  then Ok {| tb_cols := tb_cols tb; tb_rows := tb_rows tb ++ [map (fun c => (c, cell (combine cs (map cval ks)) c)) (tb_cols tb)] |}
  else Err DbError.
Proof.
  intros HC HF. unfold exec_insert. rewrite (insert_consts js ks HF). cbn [bind]. destruct (Nat.eqb_spec (length cs) (length ks)) as [L|L].
  - rewrite assoc_row_ok by now rewrite map_length. cbn [bind andb]. unfold dkeys. rewrite combine_keys by now rewrite map_length.
    assert (X : forallb (fun c => smem c (tb_cols tb) && is_column kw c) cs = forallb (fun c => smem c (tb_cols tb)) cs).
    { clear L HF. induction HC as [|c cs C HC IH]; [reflexivity|]. cbn [forallb]. unfold colp in C. now rewrite C, IH, andb_true_r. }
    now rewrite X.
  - rewrite assoc_row_bad by now rewrite map_length. reflexivity.
Qed.
Lemma assign_obey old a b r : Forall2 (fun x y => fst x = fst y /\ colp (fst y) /\ forall r, operand kw r (snd x) = Ok (cval (snd y))) a b ->
  assign kw old a r = assigned old b r.
Proof.
  intros F. revert r. induction F as [|[c j] [c' k] a b (E & C & O) F IH]; intros r; [reflexivity|]. cbn [fst snd] in *. subst c'.
  cbn [assign assigned]. rewrite O. cbn [bind]. unfold colp in C. rewrite C. cbn [andb]. destruct (dmem old c); [apply IH|reflexivity].
Qed.
Lemma exec_obey D t tb j q : stm t j q -> dget D t = Some tb -> Forall colp (tb_cols tb) -> exec kw D j = obey D q.
Proof.
  intros S HT HC. assert (OT : of_table D t = Ok tb) by (unfold of_table; now rewrite HT).
  destruct S as [t sel i w q o oq lim HI HW HO|t cs js ks H HF|t a b w q F HW|t w q HW]; cbn [obey]; rewrite OT; cbn [bind].
  - rewrite (exec_sel kw D t tb HT). rewrite (select_obey tb sel i w q o oq lim HI HW HO HC).
    destruct (filterM (keeps q) (tb_rows tb)); reflexivity.
  - rewrite (exec_ins kw D t tb HT). rewrite (insert_obey tb cs js ks H HF). destruct (_ && _); reflexivity.
  - rewrite (exec_upd kw D t tb HT). unfold exec_update.
    rewrite (mapM_ext _ (fun r => do b0 <- keeps q r; (if b0 : bool then assigned r b r else Ok r))).
    + destruct (mapM _ _); reflexivity.
    + intros r _. rewrite (selected_keeps w q r HW). destruct (keeps q r) as [[|]|]; cbn [bind]; try reflexivity. now apply assign_obey.
  - rewrite (exec_del kw D t tb HT). unfold exec_delete.
    rewrite (filterM_ext _ (fun r => do b <- keeps q r; Ok (negb b))).
    + destruct (filterM _ _); reflexivity.
    + intros r. now rewrite (selected_keeps w q r HW).
Qed.

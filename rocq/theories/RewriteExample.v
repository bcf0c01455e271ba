(** A small database used in the examples: its metadata, a cipher environment, and the proof that
    the hypotheses of the theorems hold for them. *)
From Coq Require Import String Ascii List NArith ZArith QArith Bool.
From Coq Require Import Init.Byte.
From Verif Require Import Base BaseProof CryptoModel CryptoProof FuzzyModel OpeModel OpeProps JsonModel
  RewriteModel SqlSpec EncSpec StmtSpec.
Import ListNotations.
Open Scope Z_scope.

(** Not the code's: a fixed environment. *)
Definition exE : env :=
  {| e_P := prim_rot; e_alnum := ascii_alnum; e_hyper := greedy; e_ks := fun _ _ _ => x5a;
     e_rnd := fun _ => 2; e_repr := fun _ => u "?"; e_eval := fun _ => None |}.
Definition exkw (s : pystr) : bool := smem s [u "select"; u "from"; u "where"; u "order"; u "key"].

Definition col_plain (ty : string) : colmeta :=
  {| c_plain := true; c_type := u ty; c_key := []; c_enc := []; c_homo := None; c_sm4 := None; c_comment := None |}.
Definition col_enc (ty key : string) (enc : dict pystr) : colmeta :=
  {| c_plain := false; c_type := u ty; c_key := u key; c_enc := enc; c_homo := None; c_sm4 := None; c_comment := None |}.

Definition emp : tmeta :=
  {| t_anon := u "t9f";
     t_cols := [(u "id", col_plain "int");
                (u "name", col_enc "varchar" "k1" [(SYM, u "b71"); (FUZ, u "c02")]);
                (u "age", col_enc "int" "k2" [(SYM, u "d33"); (OPEC, u "e45")])];
     t_comment := None |}.
Definition dep : tmeta :=
  {| t_anon := u "q04";
     t_cols := [(u "boss", col_enc "varchar" "k1" [(SYM, u "f10")]);
                (u "other", col_enc "varchar" "Z9" [(SYM, u "g11")])];
     t_comment := None |}.
Definition exM : dbmeta := [(u "emp", emp); (u "dep", dep)].

Ltac nodup := repeat (constructor; [cbn; intuition discriminate|]); constructor.

Lemma emp_wf : wf_table exkw emp.
Proof.
  constructor.
  - nodup.
  - nodup.
  - intros k [<-|[<-|[<-|[]]]]; split; reflexivity.
  - intros n [<-|[<-|[<-|[<-|[<-|[]]]]]]; split; reflexivity.
  - intros k c H. apply dget_In in H. destruct H as [[= <- <-]|[[= <- <-]|[[= <- <-]|[]]]]; nodup.
Qed.
Lemma dep_wf : wf_table exkw dep.
Proof.
  constructor.
  - nodup.
  - nodup.
  - intros k [<-|[<-|[]]]; split; reflexivity.
  - intros n [<-|[<-|[]]]; split; reflexivity.
  - intros k c H. apply dget_In in H. destruct H as [[= <- <-]|[[= <- <-]|[]]]; nodup.
Qed.
Lemma exM_wf : wf_meta exkw exM.
Proof.
  constructor.
  - nodup.
  - intros t m H. apply dget_In in H. destruct H as [[= <- <-]|[[= <- <-]|[]]]; [apply emp_wf | apply dep_wf].
  - intros t m k c H K. apply dget_In in H. apply dget_In in K.
    destruct H as [[= <- <-]|[[= <- <-]|[]]].
    + destruct K as [[= <- <-]|[[= <- <-]|[[= <- <-]|[]]]].
      * left. reflexivity.
      * right. split; [|left; reflexivity]. right. split; [reflexivity|]. cbn. intuition.
      * right. split; [|left; reflexivity]. left. split; [reflexivity|]. cbn. intuition.
    + destruct K as [[= <- <-]|[[= <- <-]|[]]];
      (right; split; [|left; reflexivity]; right; split; [reflexivity|]; cbn; intuition).
  - intros t t' m m' H H' A. apply dget_In in H. apply dget_In in H'.
    destruct H as [[= <- <-]|[[= <- <-]|[]]]; destruct H' as [[= <- <-]|[[= <- <-]|[]]]; try reflexivity; discriminate A.
Qed.
Lemma exE_ok : prim_ok (e_P exE).
Proof. exact prim_rot_ok. Qed.

(** Statement pieces. *)
Definition cmp (k c : string) (v : json) : json := JDict [(u k, JList [JStr (u c); v])].
Definition conj (l : list json) : json := JDict [(u "and", JList l)].
Definition disj (l : list json) : json := JDict [(u "or", JList l)].

(** The condition [name = 'Bob Ray' AND (age > 30 OR id <> 4) AND name LIKE '%b R%']. *)
Definition ex_cond : json :=
  conj [cmp "eq" "name" (lit (u "Bob Ray")); disj [cmp "gt" "age" (JInt 30); cmp "neq" "id" (JInt 4)];
        cmp "like" "name" (lit (u "%b R%"))].

Lemma ex_cond_frag : frag_cond exkw ascii_alnum emp ex_cond.
Proof.
  cbn [frag_cond ex_cond conj disj].
  change (smem (u "and") [u "and"; u "or"]) with true. cbv iota. split; [|split; [|split; [|exact I]]].
  - right. left. exists (u "name"), (col_enc "varchar" "k1" [(SYM, u "b71"); (FUZ, u "c02")]), (u "Bob Ray").
    split; [reflexivity|]. split; [reflexivity|]. split.
    + split; [reflexivity|]. split; [reflexivity|]. exists (u "b71"). reflexivity.
    + split; [reflexivity|]. split; [reflexivity|]. right. discriminate.
  - change (smem (u "or") [u "and"; u "or"]) with true. cbv iota. split; [|split; [|exact I]].
    + right. right. right. left. exists (u "age"), (col_enc "int" "k2" [(SYM, u "d33"); (OPEC, u "e45")]), 30.
      split; [reflexivity|]. split; [reflexivity|]. split; [|split; [reflexivity|split; [discriminate|reflexivity]]].
      split; [reflexivity|]. split; [reflexivity|]. exists (u "e45"). reflexivity.
    + left. split; [reflexivity|]. split; [|discriminate].
      intros s Hs. cbn in Hs. destruct Hs as [<-|[]]. exists (col_plain "int"). split; reflexivity.
  - right. right. right. right. exists (u "name"), (col_enc "varchar" "k1" [(SYM, u "b71"); (FUZ, u "c02")]), [u ""; u "b R"; u ""].
    split; [reflexivity|]. split; [reflexivity|]. split; [|split; [reflexivity|]].
    + split; [reflexivity|]. split; [reflexivity|]. exists (u "c02"). reflexivity.
    + split; [discriminate|]. split; [|split; [|exact I]].
      * intros p [<-|[<-|[<-|[]]]]; [left; reflexivity| |left; reflexivity]. right. split; [cbn; repeat constructor|]. split; reflexivity.
      * intros p [<-|[<-|[<-|[]]]]; reflexivity.
Qed.

(** A history: three INSERTs, an UPDATE, a DELETE and SELECTs. *)
Definition ins (i : Z) (n : string) (a : Z) : json :=
  insert_stmt (u "emp") [u "age"; u "id"; u "name"] [JInt a; JInt i; lit (u n)].
Definition ex_hist : list ((pystr -> Z) * json) :=
  map (fun j => (fun _ => 2, j))
  [ins 1 "Ann Lee" 41; ins 2 "Bob Ray" 35; ins 3 "Bob Ray" 22;
   update_stmt (u "emp") [(u "name", lit (u "Eve Fox")); (u "age", JInt 50)] (Some (cmp "lt" "age" (JInt 30)));
   select_stmt (u "emp") (JStr (u "*")) None None None None;
   delete_stmt (u "emp") (Some (cmp "eq" "name" (lit (u "Bob Ray"))));
   select_stmt (u "emp") (JList [val (JStr (u "name")); val (JStr (u "id"))]) None
     (Some (JDict [(u "value", JStr (u "age"))])) (Some (JInt 1)) (Some (JInt 1));
   select_stmt (u "emp") (val (JDict [(u "max", JStr (u "age"))])) None None None None;
   select_stmt (u "emp") (val (JDict [(u "count", JStr (u "*"))])) (Some ex_cond) None None None].

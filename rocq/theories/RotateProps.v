(** C64: key rotation. *)
From Coq Require Import String Ascii List NArith ZArith Bool Lia.
From Verif Require Import Base BaseProof CryptoModel JsonModel RewriteModel MetaModel OfflineModel OfflineProof.
From Verif Require Import RotateModel RewriteExample.
Import ListNotations.

(** The events of a rotation that nothing interrupts. *)
Definition whole (csv : bool) (table feature : pystr) (ciphers : list pystr) : list ev :=
  (if csv then [EFile] else []) ++ [EMetaRead; EExec 0 (update_text table feature)] ++
  map (fun c => EExec 1 (insert_text table feature c)) ciphers ++ [EMetaRead].
Definition prefix {A} (p l : list A) : Prop := exists q, l = p ++ q.

Lemma prefix_app {A} (p l k : list A) : prefix p l -> prefix (k ++ p) (k ++ l).
Proof. intros [q ->]. exists q. rewrite app_assoc. reflexivity. Qed.
Lemma prefix_refl {A} (l : list A) : prefix l l.
Proof. exists []. rewrite app_nil_r. reflexivity. Qed.
Lemma prefix_trans {A} (p q l : list A) : prefix p q -> prefix q l -> prefix p l.
Proof. intros [x ->] [y ->]. exists (x ++ y). rewrite app_assoc. reflexivity. Qed.

Lemma upload_prefix {T} (run : pystr -> T -> res T) table feature ciphers : forall t,
  prefix (fst (upload run table feature ciphers t)) (map (fun c => EExec 1 (insert_text table feature c)) ciphers) /\
  (snd (upload run table feature ciphers t) = Ok tt ->
   fst (upload run table feature ciphers t) = map (fun c => EExec 1 (insert_text table feature c)) ciphers).
Proof.
  induction ciphers as [|c r IH]; intros t; cbn [upload map].
  - split; [apply prefix_refl|reflexivity].
  - destruct (run (insert_text table feature c) t) as [t'|e].
    + specialize (IH t'). destruct (upload run table feature r t') as [tr x]. cbn [fst snd] in *. destruct IH as [I1 I2].
      split; [apply (prefix_app _ _ [_]); exact I1|]. intros H. rewrite (I2 H). reflexivity.
    + cbn [fst snd]. split; [|discriminate]. exists (map (fun c => EExec 1 (insert_text table feature c)) r). reflexivity.
Qed.

Section Facts.
Context {T : Type} (run : pystr -> T -> res T) (ac : bool) (P : prim) (repr : colmeta -> pystr)
  (dec : pystr -> option (list (list sqlv)) -> res (list pystr))
  (rows1 rows2 : list mrow) (csv : option (res (list (list sqlv)))) (db table feature : pystr)
  (new_key : option pystr) (t0 : T).
Let out := rotate_key run ac P repr dec rows1 rows2 csv db table feature new_key t0.
Let has := match csv with Some _ => true | None => false end.

Lemma rotate_events : fst out = [] \/ fst out = [EFile] \/ fst out = [EMetaRead] \/ fst out = [EFile; EMetaRead] \/
  exists key col anon ciphers, get_key_info rows1 db table feature = Ok (key, col, anon) /\
    prefix ((if has then [EFile] else []) ++ [EMetaRead; EExec 0 (update_text anon (repr col))]) (fst out) /\
    prefix (fst out) (whole has anon (repr col) ciphers) /\
    (ciphers = [] \/ exists t1 l raw, run (update_text anon (repr col)) t0 = Ok t1 /\ csv = Some (Ok l) /\
       dec key (Some l) = Ok raw /\ encrypt_data P new_key raw = Ok ciphers \/
       csv = None /\ dec key None = Ok raw /\ encrypt_data P new_key raw = Ok ciphers) /\
    (snd out = Ok tt -> rows2 = []).
Proof.
  unfold out, rotate_key. subst has.
  set (start := match csv with Some _ => [EFile] | None => [] end).
  assert (Hs : start = if match csv with Some _ => true | None => false end then [EFile] else []) by (destruct csv; reflexivity).
  destruct (match csv with Some (Ok l) => Ok (Some l) | Some (Err e) => Err e | None => Ok None end) as [cipher|e] eqn:C.
  2:{ cbn [fst]. destruct csv as [[l|e']|]; try discriminate C. right. left. reflexivity. }
  destruct (get_key_info rows1 db table feature) as [[[key col] anon]|e] eqn:K.
  2:{ cbn [fst]. destruct csv; [right; right; right; left|right; right; left]; reflexivity. }
  right. right. right. right. cbv zeta.
  set (upd := update_text anon (repr col)).
  destruct (run upd t0) as [t1|e] eqn:R.
  2:{ exists key, col, anon, []. cbn [fst snd]. rewrite Hs. split; [reflexivity|].
      split; [apply prefix_refl|]. split; [|split; [left; reflexivity|discriminate]].
      exists [EMetaRead]. unfold whole. cbn [map]. rewrite <- app_assoc. reflexivity. }
  destruct (do raw <- dec key cipher; encrypt_data P new_key raw) as [ciphers|e] eqn:D.
  2:{ exists key, col, anon, []. cbn [fst snd]. rewrite Hs. split; [reflexivity|].
      split; [apply prefix_refl|]. split; [|split; [left; reflexivity|discriminate]].
      exists [EMetaRead]. unfold whole. cbn [map]. rewrite <- app_assoc. reflexivity. }
  destruct (upload_prefix run anon (repr col) ciphers (if ac then t1 else t0)) as [U1 U2].
  destruct (upload run anon (repr col) ciphers (if ac then t1 else t0)) as [tr2 x]. cbn [fst snd] in U1, U2.
  exists key, col, anon, ciphers. split; [reflexivity|].
  assert (Hc : ciphers = [] \/ exists t1 l raw, run (update_text anon (repr col)) t0 = Ok t1 /\ csv = Some (Ok l) /\
       dec key (Some l) = Ok raw /\ encrypt_data P new_key raw = Ok ciphers \/
       csv = None /\ dec key None = Ok raw /\ encrypt_data P new_key raw = Ok ciphers).
  { right. destruct (dec key cipher) as [raw|e] eqn:Q; [|discriminate D]. cbn [bind] in D.
    destruct csv as [[l|e]|]; try discriminate C; injection C as <-.
    - exists t1, l, raw. left. auto.
    - exists t1, [], raw. right. auto. }
  destruct x as [[]|e]; cbn [fst snd]; rewrite Hs.
  - rewrite (U2 eq_refl). split; [|split; [|split; [exact Hc|]]].
    + exists (map (fun c => EExec 1 (insert_text anon (repr col) c)) ciphers ++ [EMetaRead]). unfold upd. rewrite !app_assoc. reflexivity.
    + unfold whole, upd. rewrite <- !app_assoc. apply prefix_refl.
    + unfold update_proxy_db. destruct rows2; [reflexivity|]. intros H. exfalso.
      destruct (dgetE (load_delta _) db); [|discriminate H]. cbn [bind] in H.
      destruct (dgetE _ table) as [m'|]; [|discriminate H]. cbn [bind] in H.
      destruct (dgetE (t_cols m') feature); discriminate H.
  - split; [|split; [|split; [exact Hc|discriminate]]].
    + exists tr2. reflexivity.
    + unfold whole. rewrite <- app_assoc. apply prefix_app. apply (prefix_app _ _ [_; _]).
      eapply prefix_trans; [exact U1|]. exists [EMetaRead]. reflexivity.
Qed.
End Facts.

Lemma no_commit_stored {T} (run : pystr -> T -> res T) tr : (forall c, ~ In (ECommit c) tr) -> forall t p,
  fst (fold_left (store_step run false) tr (t, p)) = t.
Proof.
  induction tr as [|e tr IH]; intros H t p; [reflexivity|]. cbn [fold_left].
  assert (Htr : forall c, ~ In (ECommit c) tr) by (intros c G; apply (H c); right; exact G).
  destruct e as [| |c s|c|]; cbn [store_step]; try apply (IH Htr).
  exfalso. apply (H c). left. reflexivity.
Qed.
Lemma prefix_in {A} (p l : list A) x : prefix p l -> In x p -> In x l.
Proof. intros [q ->] H. apply in_app_iff. left. exact H. Qed.
Lemma whole_events has table feature ciphers e : In e (whole has table feature ciphers) ->
  e = EFile \/ e = EMetaRead \/ e = EExec 0 (update_text table feature) \/
  exists c, In c ciphers /\ e = EExec 1 (insert_text table feature c).
Proof.
  unfold whole. intros H. apply in_app_iff in H. destruct H as [H|H].
  { destruct has; [destruct H as [<-|[]]; auto|destruct H]. }
  apply in_app_iff in H. destruct H as [[<-|[<-|[]]]|H]; [auto|auto|].
  apply in_app_iff in H. destruct H as [H|[<-|[]]]; [|auto].
  apply in_map_iff in H. destruct H as (c & <- & Hc). right. right. right. exists c. auto.
Qed.

(** The events of every rotation, whatever the server, the file, and the metadata: the file, the
    metadata, one UPDATE of the whole table under its anonymous name (where the name of the column should stand there is
    the text of its entry in the metadata), then one INSERT for each new ciphertext, then the
    metadata again; an exception cuts the sequence short. *)
Theorem C64_events : forall {T} (run : pystr -> T -> res T) ac P repr dec rows1 rows2 csv db table feature new_key t0,
  let '(tr, x) := rotate_key run ac P repr dec rows1 rows2 csv db table feature new_key t0 in
  (forall s, ~ In (EExec 0 s) tr /\ ~ In (EExec 1 s) tr) \/
  exists has D m c ciphers,
    dget (load_delta rows1) db = Some D /\ dget D table = Some m /\ dget (t_cols m) feature = Some c /\
    prefix tr (whole has (t_anon m) (repr c) ciphers) /\ In (EExec 0 (update_text (t_anon m) (repr c))) tr.
Proof.
  intros T run ac P repr dec rows1 rows2 csv db table feature new_key t0.
  pose proof (rotate_events run ac P repr dec rows1 rows2 csv db table feature new_key t0) as H.
  destruct (rotate_key run ac P repr dec rows1 rows2 csv db table feature new_key t0) as [tr x]. cbn [fst snd] in H.
  destruct H as [H|[H|[H|[H|(key & col & anon & ciphers & K & H1 & H2 & _)]]]];
    try (left; intros s; rewrite H; cbn [In]; intuition discriminate).
  right. unfold get_key_info, dgetE in K. destruct rows1 as [|r1 rows1]; [discriminate K|].
  destruct (dget (load_delta (r1 :: rows1)) db) as [D|] eqn:K1; [|discriminate K]. cbn [bind] in K.
  destruct (dget D table) as [m|] eqn:K2; [|discriminate K]. cbn [bind] in K.
  destruct (dget (t_cols m) feature) as [c|] eqn:K3; [|discriminate K]. cbn [bind] in K. injection K as _ <- <-.
  eexists _, D, m, c, ciphers. split; [reflexivity|]. split; [exact K2|]. split; [exact K3|]. split; [exact H2|].
  eapply prefix_in; [exact H1|]. apply in_app_iff. right. cbn [In]. auto.
Qed.
Print Assumptions C64_events.

(** Refuted: an interruption loses nothing, because nothing is ever removed for good.  Without autocommit,
    the stored data are the old ones at every crash point, and after the last event. *)
Theorem C64_interruption_loses_refuted : forall {T} (run : pystr -> T -> res T) P repr dec rows1 rows2 csv db table feature new_key t0 p,
  prefix p (fst (rotate_key run false P repr dec rows1 rows2 csv db table feature new_key t0)) ->
  stored run false t0 p = t0.
Proof.
  intros T run P repr dec rows1 rows2 csv db table feature new_key t0 p Hp.
  unfold stored. apply no_commit_stored. intros c H. pose proof (prefix_in _ _ _ Hp H) as G.
  destruct (rotate_events run false P repr dec rows1 rows2 csv db table feature new_key t0)
    as [E|[E|[E|[E|(key & col & anon & ciphers & K & H1 & H2 & _)]]]];
    try (rewrite E in G; cbn [In] in G; intuition discriminate).
  pose proof (prefix_in _ _ _ H2 G) as W. apply whole_events in W.
  destruct W as [W|[W|[W|(? & _ & W)]]]; discriminate W.
Qed.
Print Assumptions C64_interruption_loses_refuted.

(** The metadata are never written: the key of the column stays the old one, at every crash point. *)
Theorem C64_key_never_changed : forall {T} (run : pystr -> T -> res T) ac P repr dec rows1 rows2 csv db table feature new_key t0,
  ~ In EMetaWrite (fst (rotate_key run ac P repr dec rows1 rows2 csv db table feature new_key t0)).
Proof.
  intros T run ac P repr dec rows1 rows2 csv db table feature new_key t0 G.
  destruct (rotate_events run ac P repr dec rows1 rows2 csv db table feature new_key t0)
    as [E|[E|[E|[E|(key & col & anon & ciphers & K & H1 & H2 & _)]]]];
    try (rewrite E in G; cbn [In] in G; intuition discriminate).
  pose proof (prefix_in _ _ _ H2 G) as W. apply whole_events in W.
  destruct W as [W|[W|[W|(? & _ & W)]]]; discriminate W.
Qed.
Print Assumptions C64_key_never_changed.

(** A rotation never succeeds while p_db_meta has a row. *)
Theorem C64_never_succeeds : forall {T} (run : pystr -> T -> res T) ac P repr dec rows1 rows2 csv db table feature new_key t0,
  rows2 <> [] -> exists e, snd (rotate_key run ac P repr dec rows1 rows2 csv db table feature new_key t0) = Err e.
Proof.
  intros T run ac P repr dec rows1 rows2 csv db table feature new_key t0 Hr.
  destruct (snd (rotate_key run ac P repr dec rows1 rows2 csv db table feature new_key t0)) as [[]|e] eqn:X; [|eexists; reflexivity].
  exfalso. unfold rotate_key in X.
  destruct (match csv with Some (Ok l) => Ok (Some l) | Some (Err e) => Err e | None => Ok None end); [|discriminate X].
  destruct (get_key_info rows1 db table feature) as [[[key col] anon]|]; [|discriminate X]. cbv zeta in X.
  destruct (run (update_text anon (repr col)) t0); [|discriminate X].
  destruct (bind _ _); [|discriminate X].
  destruct (upload _ _ _ _ _) as [tr2 [?|]]; [|discriminate X]. cbn [snd] in X.
  unfold update_proxy_db in X. destruct rows2; [contradiction|].
  destruct (dgetE (load_delta _) db); [|discriminate X]. cbn [bind] in X.
  destruct (dgetE _ table) as [m'|]; [|discriminate X]. cbn [bind] in X.
  destruct (dgetE (t_cols m') feature); discriminate X.
Qed.
Print Assumptions C64_never_succeeds.

(** With the decryption of the code (a pool, whose function cannot be pickled) no ciphertext is ever
    uploaded: the only statement is the UPDATE. *)
Theorem C64_nothing_uploaded : forall {T} (run : pystr -> T -> res T) ac P repr dec rows1 rows2 csv db table feature new_key t0 s,
  is_decrypt_data dec ->
  ~ In (EExec 1 s) (fst (rotate_key run ac P repr dec rows1 rows2 csv db table feature new_key t0)).
Proof.
  intros T run ac P repr dec rows1 rows2 csv db table feature new_key t0 s [D1 D2] G.
  destruct (rotate_events run ac P repr dec rows1 rows2 csv db table feature new_key t0)
    as [H|[H|[H|[H|(key & col & anon & ciphers & K & H1 & H2 & H3 & _)]]]];
    try (rewrite H in G; cbn [In] in G; intuition discriminate).
  assert (ciphers = []) as ->.
  { destruct H3 as [H3|(t1 & l & raw & [(_ & _ & Hd & He)|(_ & Hd & _)])]; [exact H3| |].
    - destruct (D2 key l) as [f Hf]. apply pool_result in Hf; [|unfold CPU_NUM; lia].
      destruct l as [|x l].
      + cbn [mapM] in Hf. rewrite Hd in Hf. injection Hf as ->. injection He as <-. reflexivity.
      + rewrite (mapM_err_first (owned false f) AttributeError x l eq_refl) in Hf. congruence.
    - rewrite D1 in Hd. discriminate Hd. }
  pose proof (prefix_in _ _ _ H2 G) as W. apply whole_events in W.
  destruct W as [W|[W|[W|(? & [] & _)]]]; discriminate W.
Qed.
Print Assumptions C64_nothing_uploaded.

Lemma stored_autocommit {T} (run : pystr -> T -> res T) tr : (forall c, ~ In (ECommit c) tr) -> forall t p,
  fst (fold_left (store_step run true) tr (t, p)) =
  fold_left (fun t s => effect run s t) (flat_map (fun e => match e with EExec _ s => [s] | _ => [] end) tr) t.
Proof.
  induction tr as [|e tr IH]; intros H t p; [reflexivity|]. cbn [fold_left].
  assert (Htr : forall c, ~ In (ECommit c) tr) by (intros c G; apply (H c); right; exact G).
  destruct e as [| |c s|c|]; cbn [store_step flat_map app fold_left]; try apply (IH Htr).
  exfalso. apply (H c). left. reflexivity.
Qed.

(** With autocommit the claim holds, and worse: if the server accepts the UPDATE, what it leaves is
    what stays, since no upload follows; the call raises an exception. *)
Theorem C64_autocommit_loses : forall {T} (run : pystr -> T -> res T) P repr dec rows1 rows2 csv db table feature new_key t0 key col anon t1,
  is_decrypt_data dec -> get_key_info rows1 db table feature = Ok (key, col, anon) -> rows2 <> [] ->
  (csv = None \/ exists l, csv = Some (Ok l)) -> run (update_text anon (repr col)) t0 = Ok t1 ->
  let '(tr, x) := rotate_key run true P repr dec rows1 rows2 csv db table feature new_key t0 in
  stored run true t0 tr = t1 /\ exists e, x = Err e.
Proof.
  intros T run P repr dec rows1 rows2 csv db table feature new_key t0 key col anon t1 HD HK Hr2 Hcsv HR.
  pose proof (rotate_events run true P repr dec rows1 rows2 csv db table feature new_key t0) as H.
  pose proof (fun s => C64_nothing_uploaded run true P repr dec rows1 rows2 csv db table feature new_key t0 s HD) as N.
  pose proof (C64_never_succeeds run true P repr dec rows1 rows2 csv db table feature new_key t0 Hr2) as [e X].
  assert (U : In (EExec 0 (update_text anon (repr col))) (fst (rotate_key run true P repr dec rows1 rows2 csv db table feature new_key t0))).
  { unfold rotate_key. rewrite HK. cbv zeta. rewrite HR.
    destruct Hcsv as [->|[l ->]].
    - destruct (bind (dec key None) _) as [cs|]; [|cbn; auto].
      destruct (upload _ _ _ _ _) as [tr2 [?|]]; cbn; auto.
    - destruct (bind (dec key (Some l)) _) as [cs|]; [|cbn; auto].
      destruct (upload _ _ _ _ _) as [tr2 [?|]]; cbn; auto. }
  destruct (rotate_key run true P repr dec rows1 rows2 csv db table feature new_key t0) as [tr x]. cbn [fst snd] in *.
  split; [|exists e; exact X].
  destruct H as [H|[H|[H|[H|(key' & col' & anon' & ciphers & K & H1 & H2 & H3 & _)]]]];
    try (rewrite H in U; cbn [In] in U; intuition discriminate).
  rewrite HK in K. injection K as <- <- <-.
  assert (Hcom : forall c, ~ In (ECommit c) tr).
  { intros c Hc. pose proof (prefix_in _ _ _ H2 Hc) as W. apply whole_events in W.
    destruct W as [W|[W|[W|(? & _ & W)]]]; discriminate W. }
  unfold stored. rewrite (stored_autocommit run tr Hcom).
  destruct H1 as [rest ->].
  assert (Hrest : flat_map (fun e => match e with EExec _ s => [s] | _ => [] end) rest = []).
  { assert (R : forall e, In e rest -> match e with EExec _ s => False | _ => True end).
    { intros ev Hin.
      assert (W : In ev (map (fun c => EExec 1 (insert_text anon (repr col) c)) ciphers ++ [EMetaRead])).
      { destruct H2 as [q Hq]. unfold whole in Hq. rewrite <- !app_assoc in Hq. apply app_inv_head in Hq. cbn [app] in Hq.
        injection Hq as Hq. rewrite Hq. apply in_app_iff. left. exact Hin. }
      apply in_app_iff in W. destruct W as [W|[<-|[]]]; [|exact I].
      apply in_map_iff in W. destruct W as (c & <- & _). apply (N (insert_text anon (repr col) c)).
      apply in_app_iff. right. exact Hin. }
    clear - R. induction rest as [|ev rest IH]; [reflexivity|]. cbn [flat_map].
    rewrite IH by (intros ev' Hin; apply R; right; exact Hin).
    specialize (R ev (or_introl eq_refl)). destruct ev; try reflexivity. contradiction. }
  rewrite !flat_map_app, Hrest, app_nil_r.
  assert (Hf : flat_map (fun e => match e with EExec _ s => [s] | _ => [] end)
    (if match csv with Some _ => true | None => false end then [EFile] else []) = @nil pystr) by (destruct csv; reflexivity).
  rewrite Hf. cbn [flat_map app fold_left]. unfold effect. rewrite HR. reflexivity.
Qed.
Print Assumptions C64_autocommit_loses.

Lemma prefix_silent (p l : list ev) : prefix p l ->
  flat_map (fun e => match e with EExec _ s => [s] | _ => [] end) l = [] ->
  flat_map (fun e => match e with EExec _ s => [s] | _ => [] end) p = [].
Proof. intros [q ->] H. rewrite flat_map_app in H. apply app_eq_nil in H. apply H. Qed.

(** Every crash point with autocommit, for any decryption: the old data, or what the UPDATE and the
    first INSERTs, in the order of the ciphertexts, have made of them. *)
Theorem C64_crash_points : forall {T} (run : pystr -> T -> res T) P repr dec rows1 rows2 csv db table feature new_key t0 p,
  prefix p (fst (rotate_key run true P repr dec rows1 rows2 csv db table feature new_key t0)) ->
  stored run true t0 p = t0 \/
  exists key col anon ciphers j, get_key_info rows1 db table feature = Ok (key, col, anon) /\
    stored run true t0 p =
      fold_left (fun t s => effect run s t) (map (insert_text anon (repr col)) (firstn j ciphers))
        (effect run (update_text anon (repr col)) t0) /\
    (j <> 0%nat -> ciphers <> [] -> exists raw cipher, dec key cipher = Ok raw /\ encrypt_data P new_key raw = Ok ciphers).
Proof.
  intros T run P repr dec rows1 rows2 csv db table feature new_key t0 p Hp.
  assert (Hcom : forall c, ~ In (ECommit c) p).
  { intros c Hc. pose proof (prefix_in _ _ _ Hp Hc) as G.
    destruct (rotate_events run true P repr dec rows1 rows2 csv db table feature new_key t0)
      as [E|[E|[E|[E|(key & col & anon & ciphers & K & H1 & H2 & _)]]]];
      try (rewrite E in G; cbn [In] in G; intuition discriminate).
    pose proof (prefix_in _ _ _ H2 G) as W. apply whole_events in W.
    destruct W as [W|[W|[W|(? & _ & W)]]]; discriminate W. }
  unfold stored. rewrite (stored_autocommit run p Hcom).
  set (ss := flat_map (fun e => match e with EExec _ s => [s] | _ => [] end) p).
  destruct (rotate_events run true P repr dec rows1 rows2 csv db table feature new_key t0)
    as [E|[E|[E|[E|(key & col & anon & ciphers & K & H1 & H2 & H3 & _)]]]];
    try (left; replace ss with (@nil pystr); [reflexivity|symmetry; rewrite E in Hp; refine (prefix_silent _ _ Hp _); reflexivity]).
  pose proof (prefix_trans _ _ _ Hp H2) as [q Hq].
  assert (Hss : prefix ss (update_text anon (repr col) :: map (insert_text anon (repr col)) ciphers)).
  { exists (flat_map (fun e => match e with EExec _ s => [s] | _ => [] end) q). subst ss.
    rewrite <- flat_map_app, <- Hq. unfold whole. rewrite !flat_map_app.
    assert (X : forall l, flat_map (fun e => match e with EExec _ s => [s] | _ => [] end)
      (map (fun c => EExec 1 (insert_text anon (repr col) c)) l) = map (insert_text anon (repr col)) l).
    { induction l as [|c l IH]; [reflexivity|]. cbn [map flat_map app]. rewrite IH. reflexivity. }
    rewrite X. destruct csv; cbn [flat_map app]; rewrite app_nil_r; reflexivity. }
  destruct Hss as [r Hr]. destruct ss as [|s0 ss]; [left; reflexivity|]. right.
  injection Hr as <- Hr.
  exists key, col, anon, ciphers, (length ss). split; [exact K|]. split.
  - cbn [fold_left]. rewrite <- firstn_map, Hr, firstn_app, Nat.sub_diag, firstn_all. cbn [firstn]. rewrite app_nil_r. reflexivity.
  - intros _ Hne. destruct H3 as [H3|(t1 & l & raw & [(_ & _ & Hd & He)|(_ & Hd & He)])]; [contradiction| |].
    + exists raw, (Some l). auto.
    + exists raw, None. auto.
Qed.
Print Assumptions C64_crash_points.

(** A server that refuses the text sent (it has no value after the equals sign) ends the rotation
    there: one statement, refused, and the data as they were, with or without autocommit. *)
Theorem C64_refused : forall {T} (run : pystr -> T -> res T) ac P repr dec rows1 rows2 l db table feature new_key t0 key col anon e,
  get_key_info rows1 db table feature = Ok (key, col, anon) ->
  run (update_text anon (repr col)) t0 = Err e ->
  let '(tr, x) := rotate_key run ac P repr dec rows1 rows2 (Some (Ok l)) db table feature new_key t0 in
  tr = [EFile; EMetaRead; EExec 0 (u "UPDATE " ++ anon ++ u " SET " ++ repr col ++ u " = ;")] /\ x = Err e /\
  stored run ac t0 tr = t0.
Proof.
  intros T run ac P repr dec rows1 rows2 l db table feature new_key t0 key col anon e HK HR.
  unfold rotate_key. rewrite HK. cbv zeta. rewrite HR. split; [reflexivity|]. split; [reflexivity|].
  unfold stored. cbn [app fold_left store_step]. unfold effect. destruct ac; cbn [fst]; [rewrite HR|]; reflexivity.
Qed.
Print Assumptions C64_refused.

(** A table with one column, a server that empties the table at UPDATE and appends at INSERT. *)
Definition rot_rows : list mrow :=
  [{| r_db := u "hr"; r_table := u "emp"; r_anon := u "t0a"; r_name := u "boss";
      r_col := col_enc "varchar" "k1" [(SYM, u "f10")] |}].
Definition rot_run (s : pystr) (t : list pystr) : res (list pystr) :=
  match s with
  | 85%N :: _ => Ok []
  | _ => Ok (t ++ [s])
  end.
(** A decryption as the code intends it, and the one the code has. *)
Definition rot_dec (key : pystr) (rows : option (list (list sqlv))) : res (list pystr) :=
  match rows with Some l => Ok (map (fun _ => u "Ann") l) | None => Err TypeError end.
Definition rot_real (key : pystr) (rows : option (list (list sqlv))) : res (list pystr) :=
  match rows with Some [] => Ok [] | Some _ => Err AttributeError | None => Err TypeError end.

(** The intended decryption, autocommit: between the UPDATE and the INSERT nothing is stored. *)
Example C64_example :
  let go ac dec := rotate_key rot_run ac prim_id (fun _ => u "f10") dec rot_rows rot_rows (Some (Ok [[VNull]]))
    (u "hr") (u "emp") (u "boss") (Some (u "k2")) [u "old"] in
  length (fst (go true rot_dec)) = 5%nat /\ snd (go true rot_dec) = Err TypeError /\
  map (fun k => length (stored rot_run true [u "old"] (firstn k (fst (go true rot_dec))))) [0; 1; 2; 3; 4; 5]%nat = [1; 1; 1; 0; 1; 1]%nat /\
  map (fun k => stored rot_run false [u "old"] (firstn k (fst (go false rot_dec)))) [2; 3; 4; 5]%nat = repeat [u "old"] 4 /\
  fst (go true rot_real) = [EFile; EMetaRead; EExec 0 (u "UPDATE t0a SET f10 = ;")] /\ snd (go true rot_real) = Err AttributeError /\
  stored rot_run true [u "old"] (fst (go true rot_real)) = [].
Proof. vm_compute. repeat split; reflexivity. Qed.

(** The hypothesis about decrypt_data is met. *)
Example C64_decrypt_data : is_decrypt_data rot_real.
Proof.
  split; [reflexivity|]. intros key rows. exists (fun _ => Ok []).
  destruct (pool_answers false (fun _ : list sqlv => Ok (@nil N)) rows CPU_NUM) as [r H].
  pose proof (pool_result _ _ _ _ _ H ltac:(unfold CPU_NUM; lia)) as R. subst r.
  destruct rows as [|x l]; [exact H|].
  rewrite (mapM_err_first (owned false (fun _ : list sqlv => Ok (@nil N))) AttributeError x l eq_refl) in H. exact H.
Qed.

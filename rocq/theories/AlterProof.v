(** Proofs about ALTER TABLE ... ADD/DROP of keys and indexes. *)
From Coq Require Import String Ascii List Arith NArith ZArith Bool Lia ZifyBool ZifyN ZifyNat.
From Verif Require Import Base BaseProof JsonModel RewriteModel SqlLex FmtModel FmtSpec AlterModel AlterSpec.
Import ListNotations.
Open Scope N_scope.

Section Main.
Variable alnum : N -> bool.
Hypothesis HA : ascii_ok alnum.
Local Notation wordc := (wordc alnum).
Local Notation rx := (rx alnum).
Local Notation word w := (forallb wordc w = true).
Local Notation blanks b := (forallb blank b = true).

(** ** Characters *)
Lemma word_ascii c : c < 128 -> wordc c = (letter c || digit c || (c =? 95)).
Proof. intros H. unfold AlterModel.wordc. now rewrite (HA c H). Qed.
Lemma blank_word c : blank c = true -> wordc c = false.
Proof.
  intros H. assert (c = 32 \/ c = 9 \/ c = 10 \/ c = 13) as [->|[->|[->| ->]]] by (unfold blank in H; lia); rewrite word_ascii by lia; reflexivity.
Qed.
Lemma punct_word c : c = 96 \/ c = 40 \/ c = 41 \/ c = 59 -> wordc c = false.
Proof. intros [->|[->|[->| ->]]]; rewrite word_ascii by lia; reflexivity. Qed.
Definition small (c : N) : bool := (97 <=? c) && (c <=? 122).
Lemma lower_small c : small (lower c) = true -> wordc c = true /\ c < 128.
Proof.
  unfold small, lower. intros H. assert (L : letter c = true /\ c < 128).
  { unfold letter. destruct ((65 <=? c) && (c <=? 90)) eqn:E; lia. }
  destruct L as [L B]. rewrite (word_ascii c B), L. split; [reflexivity|exact B].
Qed.
Lemma spelled_word x k : map lower x = k -> forallb small k = true -> word x.
Proof.
  intros <-. induction x as [|c x IH]; [reflexivity|]. cbn [map forallb]. intros H. apply andb_true_iff in H. destruct H as [H1 H2].
  rewrite (IH H2). apply lower_small in H1. now rewrite (proj1 H1).
Qed.
Lemma same_lower k c : small k = true -> (same_letter k c = true <-> lower c = k).
Proof. unfold small, same_letter, lower. intros H. destruct ((65 <=? c) && (c <=? 90)) eqn:E; lia. Qed.

(** ** The shape of what is matched *)
Fixpoint fits (p : list item) (s : pystr) : Prop :=
  match p with
  | [] => True
  | Blanks :: q => exists b r, s = b ++ r /\ blanks b /\ fits q r
  | Kw k :: q => exists x r, s = x ++ r /\ map lower x = u k /\ fits q r
  | Word :: q => exists w r, s = w ++ r /\ word w /\ fits q r
  | Name :: q => exists w r, (s = w ++ r \/ s = 96 :: w ++ 96 :: r) /\ word w /\ fits q r
  | Ch c :: q => exists r, s = c :: r /\ fits q r
  | Stop :: q => stop s = true
  end.
Definition small_items (p : list item) : Prop := Forall (fun i => match i with Kw k => forallb small (u k) = true | _ => True end) p.

Lemma keyword_some k : forallb small k = true -> forall prev s pv r, keyword k prev s = Some (pv, r) -> exists x, s = x ++ r /\ map lower x = k.
Proof.
  induction k as [|a k IH]; intros S prev s pv r H; cbn [keyword] in H.
  - destruct s; injection H as _ <-; exists []; split; reflexivity.
  - cbn [forallb] in S. apply andb_true_iff in S. destruct S as [S1 S2]. destruct s as [|c s]; [discriminate|]. destruct (same_letter a c) eqn:E; [|discriminate].
    apply (IH S2) in H. destruct H as (x & -> & X). exists (c :: x). split; [reflexivity|]. cbn [map]. apply same_lower in E; [|exact S1]. now rewrite E, X.
Qed.
Lemma star_some {A} f (k : option N -> pystr -> option A) s : forall prev w x, star f k prev s = Some (w, x) ->
  exists r pv, s = w ++ r /\ forallb f w = true /\ k pv r = Some x.
Proof.
  induction s as [|c s IH]; intros prev w x H; cbn [star] in H.
  - destruct (k prev []) eqn:E; [|discriminate]. injection H as <- <-. now exists [], prev.
  - destruct (f c) eqn:F.
    + destruct (star f k (Some c) s) as [[w' x']|] eqn:E.
      * injection H as <- <-. apply IH in E. destruct E as (r & pv & -> & W & X). exists r, pv. cbn [forallb]. now rewrite F, W.
      * destruct (k prev (c :: s)) eqn:E2; [|discriminate]. injection H as <- <-. now exists (c :: s), prev.
    + destruct (k prev (c :: s)) eqn:E2; [|discriminate]. injection H as <- <-. now exists (c :: s), prev.
Qed.
Lemma rx_fits p : small_items p -> forall prev s caps, rx p prev s = Some caps -> fits p s.
Proof.
  induction 1 as [|i p I F IH]; intros prev s caps H; [exact Logic.I|]. destruct i as [|k| | |c|]; cbn [AlterModel.rx fits] in *.
  - destruct (star blank (rx p) prev s) as [[b x]|] eqn:E; [|discriminate]. apply star_some in E. destruct E as (r & pv & -> & B & E). exists b, r. eauto.
  - destruct (keyword (u k) prev s) as [[pv r]|] eqn:E; [|discriminate]. apply (keyword_some _ I) in E. destruct E as (x & -> & X). exists x, r. eauto.
  - match type of H with match ?q with _ => _ end = _ => destruct q as [[w x]|] eqn:Q end.
    + destruct s as [|c r]; [discriminate|]. destruct (N.eqb_spec c 96) as [->|]; [|discriminate]. apply star_some in Q. destruct Q as (r' & pv & -> & W & Q).
      destruct r' as [|d r']; [discriminate|]. destruct (N.eqb_spec d 96) as [->|]; [|discriminate]. exists w, r'. eauto.
    + destruct (boundary alnum prev s); [|discriminate]. destruct (star wordc (rx p) prev s) as [[w x]|] eqn:E; [|discriminate]. apply star_some in E.
      destruct E as (r & pv & -> & W & E). exists w, r. eauto.
  - destruct (star wordc (rx p) prev s) as [[w x]|] eqn:E; [|discriminate]. apply star_some in E. destruct E as (r & pv & -> & W & E). exists w, r. eauto.
  - destruct s as [|x r]; [discriminate|]. destruct (N.eqb_spec x c) as [->|]; [|discriminate]. exists r. eauto.
  - destruct (stop s); [reflexivity|discriminate].
Qed.
Lemma rx_none p s : small_items p -> ~ fits p s -> rx p None s = None.
Proof. intros S H. destruct (rx p None s) eqn:E; [|reflexivity]. exfalso. apply H. eapply rx_fits; eauto. Qed.

(** ** Texts that do not match *)
(** What does not start with a character of words. *)
Definition off (s : pystr) : Prop := match s with c :: _ => wordc c = false | [] => True end.
Lemma split_words (x : pystr) : forall a s r, x ++ s = a ++ r -> word x -> off r -> word a -> exists a2, a = x ++ a2 /\ s = a2 ++ r.
Proof.
  induction x as [|c x IH]; intros a s r E X O W; [now exists a|]. cbn [forallb] in X. apply andb_true_iff in X. destruct X as [X1 X2].
  destruct a as [|d a].
  - cbn [app] in E. subst r. cbn [app off] in O. congruence.
  - cbn [app] in E. injection E as <- E. cbn [forallb] in W. apply andb_true_iff in W. destruct (IH a s r E X2 O (proj2 W)) as (a2 & -> & ->). now exists a2.
Qed.
Lemma split_blanks (b : pystr) : forall a s r, b ++ s = a ++ r -> blanks b -> blanks a -> (match r with c :: _ => blank c = false | [] => True end) ->
  exists a2, a = b ++ a2 /\ s = a2 ++ r.
Proof.
  induction b as [|c b IH]; intros a s r E B A R; [now exists a|]. cbn [forallb] in B. apply andb_true_iff in B. destruct B as [B1 B2].
  destruct a as [|d a].
  - cbn [app] in E. subst r. cbn [app] in R. congruence.
  - cbn [app] in E. injection E as <- E. cbn [forallb] in A. apply andb_true_iff in A. destruct (IH a s r E B2 (proj2 A) R) as (a2 & -> & ->). now exists a2.
Qed.
Lemma word_head T r : T <> [] -> word T -> match T ++ r with c :: _ => blank c = false | [] => True end.
Proof.
  destruct T as [|c T]; [contradiction|]. intros _ W. cbn [app forallb] in *. apply andb_true_iff in W. destruct (blank c) eqn:B; [|reflexivity].
  apply blank_word in B. now rewrite B in W.
Qed.
Lemma forallb_cut {A} (f : A -> bool) a b : forallb f (a ++ b) = true -> forallb f a = true /\ forallb f b = true.
Proof. rewrite forallb_app. apply andb_true_iff. Qed.
(** Some blanks are taken: what is left before the word is blanks. *)
Lemma blanks_then q b T r : blanks b -> T <> [] -> word T -> fits (Blanks :: q) (b ++ T ++ r) -> exists b2, blanks b2 /\ fits q (b2 ++ T ++ r).
Proof.
  intros B NE W (b1 & s & E & B1 & F). symmetry in E. destruct (split_blanks b1 b s (T ++ r) E B1 B (word_head T r NE W)) as (b2 & -> & ->).
  apply forallb_cut in B. now exists b2.
Qed.
(** A keyword where a word stands. *)
Lemma kw_word k q b T r : k <> EmptyString -> forallb small (u k) = true -> blanks b -> T <> [] -> word T -> off r ->
  fits (Blanks :: Kw k :: q) (b ++ T ++ r) -> exists T2, map lower T = u k ++ map lower T2 /\ word T2 /\ fits q (T2 ++ r).
Proof.
  intros NK S B NE W O H. apply blanks_then in H; [|assumption..]. destruct H as (b2 & B2 & x & s & E & X & F).
  pose proof (spelled_word x _ X S) as WX. assert (b2 = []) as ->.
  { destruct b2 as [|c b2]; [reflexivity|]. destruct x as [|d x]; [destruct k; [contradiction|discriminate X]|]. cbn [app] in E. injection E as <- _.
    cbn [forallb] in B2, WX. apply andb_true_iff in B2. apply andb_true_iff in WX. destruct B2 as [B2 _]. apply blank_word in B2. now rewrite B2 in WX. }
  cbn [app] in E. symmetry in E. destruct (split_words x T s r E WX O W) as (T2 & -> & ->). exists T2. rewrite map_app, X. apply forallb_cut in W. tauto.
Qed.
(** A word, where a word stands, takes a part of it or nothing. *)
Lemma word_word q b T r : blanks b -> T <> [] -> word T -> off r ->
  fits (Blanks :: Word :: Blanks :: q) (b ++ T ++ r) -> exists b2 T2 T1, blanks b2 /\ T = T1 ++ T2 /\ fits (Blanks :: q) (b2 ++ T2 ++ r).
Proof.
  intros B NE W O H. apply blanks_then in H; [|assumption..]. destruct H as (b2 & B2 & w & s & E & WW & F). destruct b2 as [|c b2].
  - cbn [app] in E. symmetry in E. destruct (split_words w T s r E WW O W) as (T2 & -> & ->). now exists [], T2, w.
  - assert (w = []) as ->.
    { destruct w as [|d w]; [reflexivity|]. cbn [app] in E. injection E as <- _. cbn [forallb] in B2, WW. apply andb_true_iff in B2. apply andb_true_iff in WW.
      destruct B2 as [B2 _]. apply blank_word in B2. now rewrite B2 in WW. }
    cbn [app] in E. subst s. exists (c :: b2), T, []. auto.
Qed.
Lemma ch_word c q b T r : wordc c = false -> blank c = false -> blanks b -> T <> [] -> word T -> ~ fits (Blanks :: Ch c :: q) (b ++ T ++ r).
Proof.
  intros C C2 B NE W H. apply blanks_then in H; [|assumption..]. destruct H as (b2 & B2 & s & E & _). destruct b2 as [|d b2]; cbn [app] in E.
  - destruct T as [|d T]; [contradiction|]. cbn [app] in E. injection E as -> _. cbn [forallb] in W. now rewrite C in W.
  - injection E as -> _. cbn [forallb] in B2. now rewrite C2 in B2.
Qed.
Lemma stop_chars s c : stop s = true -> In c s -> c = 59 \/ c = 10.
Proof.
  intros S I. destruct s as [|a [|b [|d s]]]; cbn [In] in I; [tauto|..]; cbn [stop at_end] in S.
  - destruct I as [->|[]]. destruct (c =? 59) eqn:E; cbn [andb] in S; lia.
  - destruct ((a =? 59) && (b =? 10)) eqn:E; [|discriminate]. destruct I as [->|[->|[]]]; lia.
  - exfalso. destruct (a =? 59); discriminate S.
Qed.
Lemma stop_word s c : In c s -> wordc c = true -> ~ fits (Blanks :: [Stop]) s.
Proof.
  intros I W (b & r & -> & B & F). cbn [fits] in F. apply in_app_iff in I. destruct I as [I|I].
  - rewrite forallb_forall in B. apply B, blank_word in I. congruence.
  - destruct (stop_chars r c F I) as [->| ->]; [rewrite punct_word in W by tauto|rewrite blank_word in W by reflexivity]; discriminate.
Qed.
Lemma in_word T b r : T <> [] -> word T -> exists c, In c (b ++ T ++ r) /\ wordc c = true.
Proof.
  destruct T as [|c T]; [contradiction|]. cbn [forallb]. intros _ W. apply andb_true_iff in W. exists c. split; [apply in_app_iff; right; now left|apply W].
Qed.

(** After the name of the table: blanks, add or drop, blanks, a keyword. *)
Record rest_ok (A K : pystr) (b1 more : pystr) : Prop := {
  r_A : map lower A = u "add" \/ map lower A = u "drop";
  r_b1 : blanks b1;
  r_ne : b1 <> [];
  r_K : In (map lower K) [u "primary"; u "constraint"; u "foreign"; u "index"; u "fulltext"; u "unique"];
  r_more : off more;
  r_foreign : map lower K = u "foreign" -> exists b2 Y b3 n r, more = b2 ++ Y ++ b3 ++ n ++ r /\ blanks b2 /\ map lower Y = u "key" /\ blanks b3 /\ b3 <> [] /\ word n /\ n <> []
}.
Section Rest.
Variables A K b1 more : pystr.
Hypothesis RO : rest_ok A K b1 more.
Let R (b : pystr) : pystr := b ++ A ++ b1 ++ K ++ more.
Lemma A_word : word A /\ A <> [].
Proof.
  destruct (r_A _ _ _ _ RO) as [E|E]; (split; [eapply spelled_word; [exact E|reflexivity]|intros ->; discriminate E]).
Qed.
Lemma K_word : word K /\ K <> [].
Proof.
  pose proof (r_K _ _ _ _ RO) as I. cbn [In] in I.
  repeat (destruct I as [I|I]; [split; [eapply spelled_word; [symmetry; exact I|reflexivity]|intros ->; discriminate I]|]). contradiction.
Qed.
Lemma off_b b s : blanks b -> b <> [] -> off (b ++ s).
Proof. destruct b as [|c b]; [contradiction|]. cbn [forallb app off]. intros B _. apply andb_true_iff in B. now apply blank_word. Qed.
Lemma off_1 : off (b1 ++ K ++ more).
Proof. apply off_b; apply RO. Qed.
(** A keyword cannot be read across a blank: either it is a part of the word before, or it is add or drop. *)
Lemma kw_rest k q b T : k <> EmptyString -> forallb small (u k) = true -> blanks b -> b <> [] -> word T ->
  fits (Blanks :: Kw k :: q) (T ++ R b) ->
  (exists T2, T <> [] /\ word T2 /\ fits q (T2 ++ R b)) \/ (T = [] /\ exists T2, map lower A = u k ++ map lower T2 /\ word T2 /\ fits q (T2 ++ b1 ++ K ++ more)).
Proof.
  intros NK S B NE W H. destruct T as [|c T].
  - right. split; [reflexivity|]. destruct A_word as [WA NA]. exact (kw_word k q b A (b1 ++ K ++ more) NK S B NA WA off_1 H).
  - left. assert (O : off (R b)) by now apply off_b. destruct (kw_word k q [] (c :: T) (R b) NK S eq_refl ltac:(discriminate) W O H) as (T2 & _ & W2 & F).
    exists T2. split; [discriminate|]. auto.
Qed.
Lemma kw_rest_not k q b T : k <> EmptyString -> forallb small (u k) = true -> match u k with c :: _ => c <> 97 /\ c <> 100 | [] => False end ->
  blanks b -> b <> [] -> word T -> fits (Blanks :: Kw k :: q) (T ++ R b) -> exists T2, word T2 /\ fits q (T2 ++ R b).
Proof.
  intros NK S D B NE W H. destruct (kw_rest k q b T NK S B NE W H) as [(T2 & _ & W2 & F)|(_ & T2 & E & _)]; [eauto|]. exfalso.
  destruct (u k) as [|c k']; [contradiction|]. destruct (r_A _ _ _ _ RO) as [EA|EA]; rewrite EA in E; injection E as E _; subst c; tauto.
Qed.
Lemma ch_rest c q b T : c = 40 -> blanks b -> b <> [] -> word T -> ~ fits (Blanks :: Ch c :: q) (T ++ R b).
Proof.
  intros -> B NE W. destruct T as [|d T].
  - destruct A_word as [WA NA]. apply (ch_word 40 q b A (b1 ++ K ++ more)); try assumption; [apply punct_word; tauto|reflexivity].
  - apply (ch_word 40 q [] (d :: T) (R b)); try assumption; [apply punct_word; tauto|reflexivity|reflexivity|discriminate].
Qed.
Lemma stop_rest b T : ~ fits (Blanks :: [Stop]) (T ++ R b).
Proof.
  destruct A_word as [WA NA]. destruct (in_word A (T ++ b) (b1 ++ K ++ more) NA WA) as (c & I & W). apply (stop_word _ c); [|exact W]. unfold R. now rewrite app_assoc.
Qed.
Lemma key_ch b T q : blanks b -> b <> [] -> word T -> ~ fits (Blanks :: Kw "key" :: Blanks :: Ch 40 :: q) (T ++ R b).
Proof.
  intros B NE W H. apply kw_rest_not in H; try assumption; [|discriminate|reflexivity|cbn; split; discriminate]. destruct H as (T2 & W2 & F). revert F. now apply ch_rest.
Qed.
Lemma key_stop b T : blanks b -> b <> [] -> word T -> ~ fits (Blanks :: Kw "key" :: Blanks :: [Stop]) (T ++ R b).
Proof.
  intros B NE W H. apply kw_rest_not in H; try assumption; [|discriminate|reflexivity|cbn; split; discriminate]. destruct H as (T2 & W2 & F). revert F. now apply stop_rest.
Qed.
(** A word takes a part of the word before, or a part of add or drop. *)
Lemma word_rest q b T : blanks b -> b <> [] -> word T -> fits (Blanks :: Word :: Blanks :: q) (T ++ R b) ->
  (exists b2 T2, blanks b2 /\ word T2 /\ fits (Blanks :: q) (b2 ++ T2 ++ R b)) \/ (exists b2 T1 T2, blanks b2 /\ A = T1 ++ T2 /\ fits (Blanks :: q) (b2 ++ T2 ++ b1 ++ K ++ more)).
Proof.
  intros B NE W H. destruct T as [|c T].
  - right. destruct A_word as [WA NA]. destruct (word_word q b A (b1 ++ K ++ more) B NA WA off_1 H) as (b2 & T2 & T1 & B2 & E & F). now exists b2, T1, T2.
  - left. assert (O : off (R b)) by now apply off_b. destruct (word_word q [] (c :: T) (R b) eq_refl ltac:(discriminate) W O H) as (b2 & T2 & T1 & B2 & E & F).
    exists b2, T2. rewrite E in W. apply forallb_cut in W. tauto.
Qed.
Lemma blanks_app b c : blanks b -> blanks c -> blanks (b ++ c).
Proof. intros. rewrite forallb_app. now apply andb_true_iff. Qed.
Lemma ch_skip q b b2 T : blanks b2 -> blanks b -> b <> [] -> word T -> ~ fits (Blanks :: Ch 40 :: q) (b2 ++ T ++ R b).
Proof.
  intros B2 B NE W. destruct T as [|d T].
  - cbn [app]. unfold R. rewrite app_assoc. apply (ch_rest 40 q (b2 ++ b) []); [reflexivity|now apply blanks_app| |reflexivity]. destruct b2; [exact NE|discriminate].
  - apply (ch_word 40 q b2 (d :: T) (R b)); try assumption; [apply punct_word; tauto|reflexivity|discriminate].
Qed.
Lemma ch_skip_K q b2 T1 T2 : blanks b2 -> A = T1 ++ T2 -> ~ fits (Blanks :: Ch 40 :: q) (b2 ++ T2 ++ b1 ++ K ++ more).
Proof.
  intros B2 E. destruct A_word as [WA _]. rewrite E in WA. apply forallb_cut in WA. destruct T2 as [|d T2].
  - cbn [app]. rewrite app_assoc. destruct K_word as [WK NK]. apply (ch_word 40 q (b2 ++ b1) K more); try assumption; [apply punct_word; tauto|reflexivity|apply blanks_app; [exact B2|apply RO]].
  - apply (ch_word 40 q b2 (d :: T2) (b1 ++ K ++ more)); try assumption; try apply WA; [apply punct_word; tauto|reflexivity|discriminate].
Qed.
Lemma word_ch b T q : blanks b -> b <> [] -> word T -> ~ fits (Blanks :: Word :: Blanks :: Ch 40 :: q) (T ++ R b).
Proof.
  intros B NE W H. apply word_rest in H; [|assumption..]. destruct H as [(b2 & T2 & B2 & W2 & F)|(b2 & T1 & T2 & B2 & E & F)]; revert F; [now apply ch_skip|now apply (ch_skip_K q b2 T1)].
Qed.
Lemma word_stop b T : blanks b -> b <> [] -> word T -> ~ fits (Blanks :: Word :: Blanks :: [Stop]) (T ++ R b).
Proof.
  intros B NE W H. apply word_rest in H; [|assumption..]. destruct H as [(b2 & T2 & B2 & W2 & F)|(b2 & T1 & T2 & B2 & E & F)]; revert F.
  - rewrite app_assoc. apply stop_rest.
  - destruct K_word as [WK NK]. destruct (in_word K (b2 ++ T2 ++ b1) more NK WK) as (c & I & W'). apply (stop_word _ c); [|exact W']. now rewrite <- !app_assoc in I.
Qed.
Lemma key_word_stop b T : blanks b -> b <> [] -> word T -> ~ fits (Blanks :: Kw "key" :: Blanks :: Word :: Blanks :: [Stop]) (T ++ R b).
Proof.
  intros B NE W H. apply kw_rest_not in H; try assumption; [|discriminate|reflexivity|cbn; split; discriminate]. destruct H as (T2 & W2 & F). revert F. now apply word_stop.
Qed.
Lemma word_foreign b T q : blanks b -> b <> [] -> word T ->
  ~ fits (Blanks :: Word :: Blanks :: Kw "foreign" :: Blanks :: Kw "key" :: Blanks :: Ch 40 :: q) (T ++ R b).
Proof.
  intros B NE W H. apply word_rest in H; [|assumption..]. destruct H as [(b2 & T2 & B2 & W2 & F)|(b2 & T1 & T2 & B2 & E & F)].
  - assert (X : exists T3, word T3 /\ (fits (Blanks :: Kw "key" :: Blanks :: Ch 40 :: q) (T3 ++ R b))).
    { destruct T2 as [|c T2].
      - exfalso. cbn [app] in F. unfold R in F. rewrite app_assoc in F. destruct A_word as [WA NA].
        destruct (kw_word "foreign" _ (b2 ++ b) A (b1 ++ K ++ more) ltac:(discriminate) eq_refl (blanks_app _ _ B2 B) NA WA off_1 F) as (T3 & E & _).
        destruct (r_A _ _ _ _ RO) as [EA|EA]; rewrite EA in E; discriminate E.
      - assert (O : off (R b)) by now apply off_b.
        destruct (kw_word "foreign" _ b2 (c :: T2) (R b) ltac:(discriminate) eq_refl B2 ltac:(discriminate) W2 O F) as (T3 & _ & W3 & F3). eauto. }
    destruct X as (T3 & W3 & F3). revert F3. now apply key_ch.
  - destruct A_word as [WA NA]. destruct T2 as [|c T2].
    + cbn [app] in F. rewrite app_assoc in F. destruct K_word as [WK NK].
      destruct (kw_word "foreign" _ (b2 ++ b1) K more ltac:(discriminate) eq_refl (blanks_app _ _ B2 (r_b1 _ _ _ _ RO)) NK WK (r_more _ _ _ _ RO) F) as (T3 & EK & W3 & F3).
      assert (EF : map lower K = u "foreign" /\ T3 = []).
      { pose proof (r_K _ _ _ _ RO) as I. cbn [In] in I. destruct I as [I|[I|[I|[I|[I|[I|[]]]]]]]; rewrite <- I in EK; try discriminate EK. split; [now symmetry|]. destruct T3; [reflexivity|discriminate EK]. }
      destruct EF as [EF ->]. destruct (r_foreign _ _ _ _ RO EF) as (c2 & Y & b3 & n & r & -> & C2 & EY & B3 & N3 & Wn & Nn). cbn [app] in F3.
      assert (WY : word Y) by (eapply spelled_word; [exact EY|reflexivity]). assert (NY : Y <> []) by (intros ->; discriminate EY).
      destruct (kw_word "key" _ c2 Y (b3 ++ n ++ r) ltac:(discriminate) eq_refl C2 NY WY (off_b _ _ B3 N3) F3) as (T4 & E4 & W4 & F4).
      rewrite EY in E4. destruct T4; [|discriminate E4]. cbn [app] in F4. revert F4. apply ch_word; try assumption; [apply punct_word; tauto|reflexivity].
    + rewrite E in WA. apply forallb_cut in WA. destruct (kw_word "foreign" _ b2 (c :: T2) (b1 ++ K ++ more) ltac:(discriminate) eq_refl B2 ltac:(discriminate) (proj2 WA) off_1 F) as (T3 & E3 & _).
      assert (L : (length A <= 4)%nat) by (destruct (r_A _ _ _ _ RO) as [EA|EA]; apply (f_equal (@length N)) in EA; rewrite map_length in EA; cbn in EA; lia).
      apply (f_equal (@length N)) in E3. rewrite app_length, !map_length in E3. rewrite E, app_length in L. change (length (u "foreign")) with 7%nat in E3. lia.
Qed.
(** Another pair of keywords. *)
Definition ks : list pystr := [u "primary"; u "constraint"; u "foreign"; u "index"; u "fulltext"; u "unique"].
Lemma same_action a T : a = "add"%string \/ a = "drop"%string -> map lower A = u a ++ map lower T -> T = [] /\ map lower A = u a.
Proof.
  intros [->| ->] E; destruct (r_A _ _ _ _ RO) as [EA|EA]; rewrite EA in E; try discriminate E; (destruct T; [split; [reflexivity|exact EA]|discriminate E]).
Qed.
Lemma same_kind k T : In (u k) ks -> map lower K = u k ++ map lower T -> map lower K = u k.
Proof.
  intros I E. pose proof (r_K _ _ _ _ RO) as J. cbn [ks In] in I, J.
  destruct I as [I|[I|[I|[I|[I|[I|[]]]]]]]; rewrite <- I in *; destruct J as [J|[J|[J|[J|[J|[J|[]]]]]]]; rewrite <- J in *; try discriminate E; reflexivity.
Qed.
Lemma kind_facts k : In (u k) ks -> k <> EmptyString /\ forallb small (u k) = true /\ match u k with c :: _ => c <> 97 /\ c <> 100 | [] => False end.
Proof.
  intros I. cbn [ks In] in I. destruct I as [I|[I|[I|[I|[I|[I|[]]]]]]]; rewrite <- I; (split; [intros ->; discriminate I|]); (split; [reflexivity|]); cbn; split; discriminate.
Qed.
Lemma other_keywords a k q b : a = "add"%string \/ a = "drop"%string -> In (u k) ks -> blanks b ->
  fits (Blanks :: Kw a :: Blanks :: Kw k :: q) (R b) -> map lower A = u a /\ map lower K = u k.
Proof.
  intros AA I B H. destruct A_word as [WA NA]. destruct (kind_facts k I) as (NK & SK & _).
  assert (F : exists T, map lower A = u a ++ map lower T /\ word T /\ fits (Blanks :: Kw k :: q) (T ++ b1 ++ K ++ more)).
  { apply (kw_word a _ b A (b1 ++ K ++ more)); try assumption; [destruct AA; subst; discriminate|destruct AA; subst; reflexivity|apply off_1]. }
  destruct F as (T & EA & _ & F). destruct (same_action a T AA EA) as [-> E]. split; [exact E|]. cbn [app] in F. destruct K_word as [WK NK'].
  destruct (kw_word k q b1 K more NK SK (r_b1 _ _ _ _ RO) NK' WK (r_more _ _ _ _ RO) F) as (T2 & EK & _). exact (same_kind k T2 I EK).
Qed.
Lemma inside_name k q b T : In (u k) ks -> blanks b -> b <> [] -> word T -> (forall T, word T -> ~ fits q (T ++ R b)) -> ~ fits (Blanks :: Kw k :: q) (T ++ R b).
Proof.
  intros I B NE W H F. destruct (kind_facts k I) as (NK & SK & D). apply kw_rest_not in F; try assumption. destruct F as (T2 & W2 & F). now apply (H T2).
Qed.
End Rest.

(** ** The beginning of the statement *)
Definition head (b0 X1 b2 X2 bT : pystr) (s : pystr) : pystr := b0 ++ X1 ++ b2 ++ X2 ++ bT ++ s.
Record head_ok (b0 X1 b2 X2 bT : pystr) : Prop := {
  h_b0 : blanks b0; h_X1 : map lower X1 = u "alter"; h_b2 : blanks b2; h_ne : b2 <> []; h_X2 : map lower X2 = u "table"; h_bT : blanks bT }.
Lemma fits_head p b0 X1 b2 X2 bT s : head_ok b0 X1 b2 X2 bT -> off (bT ++ s) -> fits (alter_table p) (head b0 X1 b2 X2 bT s) -> fits (Blanks :: Name :: Blanks :: p) (bT ++ s).
Proof.
  intros [B0 E1 B2 N2 E2 BT] O H. unfold alter_table, head in H.
  assert (W1 : word X1) by (eapply spelled_word; [exact E1|reflexivity]). assert (NX1 : X1 <> []) by (intros ->; discriminate E1).
  assert (W2 : word X2) by (eapply spelled_word; [exact E2|reflexivity]). assert (NX2 : X2 <> []) by (intros ->; discriminate E2).
  destruct (kw_word "alter" _ b0 X1 (b2 ++ X2 ++ bT ++ s) ltac:(discriminate) eq_refl B0 NX1 W1 (off_b _ _ B2 N2) H) as (T1 & F1 & _ & H1).
  rewrite E1 in F1. destruct T1; [|discriminate F1]. cbn [app] in H1.
  destruct (kw_word "table" _ b2 X2 (bT ++ s) ltac:(discriminate) eq_refl B2 NX2 W2 O H1) as (T2 & F2 & _ & H2).
  rewrite E2 in F2. destruct T2; [|discriminate F2]. exact H2.
Qed.
Lemma head_plain a q bT t s : a <> EmptyString -> forallb small (u a) = true -> blanks bT -> t <> [] -> word t -> off s ->
  fits (Blanks :: Name :: Blanks :: Kw a :: q) (bT ++ t ++ s) -> (exists T, word T /\ fits q (T ++ s)) \/ fits (Blanks :: Kw a :: q) s.
Proof.
  intros NA SA BT NT W O H. apply blanks_then in H; [|assumption..]. destruct H as (b2 & B2 & w & r & E & WW & F). destruct b2 as [|c b2].
  - cbn [app] in E. destruct E as [E|E].
    + symmetry in E. destruct (split_words w t r s E WW O W) as (t2 & -> & ->). destruct t2 as [|d t2]; [right; exact F|]. left.
      apply forallb_cut in W. destruct (kw_word a q [] (d :: t2) s NA SA eq_refl ltac:(discriminate) (proj2 W) O F) as (T & _ & WT & FT). eauto.
    + exfalso. destruct t as [|d t]; [contradiction|]. cbn [app] in E. injection E as -> _. cbn [forallb] in W. rewrite punct_word in W by tauto. discriminate W.
  - destruct E as [E|E]; cbn [app] in E.
    + assert (w = []) as ->.
      { destruct w as [|d w]; [reflexivity|]. cbn [app] in E. injection E as <- _. cbn [forallb] in B2, WW. apply andb_true_iff in B2. apply andb_true_iff in WW.
        destruct B2 as [B2 _]. apply blank_word in B2. now rewrite B2 in WW. }
      cbn [app] in E. subst r. left. destruct (kw_word a q (c :: b2) t s NA SA B2 NT W O F) as (T & _ & WT & FT). eauto.
    + exfalso. injection E as -> _. cbn [forallb] in B2. discriminate B2.
Qed.
Lemma kw_tick a q b r : a <> EmptyString -> forallb small (u a) = true -> blanks b -> ~ fits (Blanks :: Kw a :: q) (b ++ 96 :: r).
Proof.
  intros NA SA B (b1 & s & E & B1 & x & r' & -> & X & _). symmetry in E. destruct (split_blanks b1 b (x ++ r') (96 :: r) E B1 B eq_refl) as (b2 & -> & E2).
  pose proof (spelled_word x _ X SA) as W. destruct x as [|c x]; [destruct a; [contradiction|discriminate X]|]. cbn [app forallb] in *. apply andb_true_iff in W. destruct W as [W _].
  destruct b2 as [|d b2]; cbn [app] in E2; injection E2 as -> _.
  - rewrite punct_word in W by tauto. discriminate W.
  - apply forallb_cut in B. destruct B as [_ B]. cbn [forallb] in B. apply andb_true_iff in B. destruct B as [B _]. apply blank_word in B. congruence.
Qed.
Lemma head_quoted a q bT t s : a <> EmptyString -> forallb small (u a) = true -> blanks bT -> word t ->
  fits (Blanks :: Name :: Blanks :: Kw a :: q) (bT ++ 96 :: t ++ 96 :: s) -> fits (Blanks :: Kw a :: q) s.
Proof.
  intros NA SA BT W (b1 & s1 & E & B1 & w & r & E1 & WW & F). symmetry in E. destruct (split_blanks b1 bT s1 (96 :: t ++ 96 :: s) E B1 BT eq_refl) as (b2 & -> & E2).
  apply forallb_cut in BT. destruct BT as [_ B2]. destruct E1 as [-> | ->].
  - exfalso. assert (w = []) as ->.
    { destruct w as [|d w]; [reflexivity|]. cbn [app forallb] in *. apply andb_true_iff in WW. destruct WW as [WW _]. destruct b2 as [|c b2]; cbn [app] in E2; injection E2 as -> _.
      - rewrite punct_word in WW by tauto. discriminate WW.
      - cbn [forallb] in B2. apply andb_true_iff in B2. destruct B2 as [B2 _]. apply blank_word in B2. congruence. }
    cbn [app] in E2. subst r. revert F. now apply kw_tick.
  - destruct b2 as [|c b2]; [|cbn [app] in E2; injection E2 as <- _; discriminate B2]. cbn [app] in E2. injection E2 as E2.
    destruct (split_words w t (96 :: r) (96 :: s) E2 WW ltac:(apply punct_word; tauto) W) as (t2 & -> & E3). destruct t2 as [|d t2].
    + injection E3 as ->. exact F.
    + exfalso. cbn [app] in E3. injection E3 as <- _. apply forallb_cut in W. destruct W as [_ W]. cbn [forallb] in W. rewrite punct_word in W by tauto. discriminate W.
Qed.

(** The texts of the statements, taken apart. *)
Lemma no_match a k q b0 X1 b2 X2 bT t tx b A K b1 more :
  a = "add"%string \/ a = "drop"%string -> In (u k) ks -> (forall b T, blanks b -> b <> [] -> word T -> ~ fits q (T ++ b ++ A ++ b1 ++ K ++ more)) ->
  head_ok b0 X1 b2 X2 bT -> name alnum t -> (tx = t /\ bT <> [] /\ b <> [] \/ tx = 96 :: t ++ [96]) -> blanks b -> rest_ok A K b1 more ->
  ~ (map lower A = u a /\ map lower K = u k) ->
  ~ fits (alter_table (Kw a :: Blanks :: Kw k :: q)) (head b0 X1 b2 X2 bT (tx ++ b ++ A ++ b1 ++ K ++ more)).
Proof.
  intros AA I Q HD [NT WT] TX B RO D H. apply fits_head in H; [|exact HD|].
  2: { destruct TX as [(-> & NB & _)| ->]; [apply off_b; [apply HD|exact NB]|]. destruct (h_bT _ _ _ _ _ HD). destruct bT as [|c bT]; [apply punct_word; tauto|apply off_b; [apply HD|discriminate]]. }
  pose proof (h_bT _ _ _ _ _ HD) as BT. assert (SA : a <> EmptyString /\ forallb small (u a) = true) by (destruct AA; subst; split; (discriminate || reflexivity)). destruct SA as [NA SA].
  destruct TX as [(-> & NBT & NB)| ->].
  - assert (O : off (b ++ A ++ b1 ++ K ++ more)) by now apply off_b.
    destruct (head_plain a _ bT t _ NA SA BT NT WT O H) as [(T & W & F)|F].
    + revert F. apply (inside_name A K b1 more RO k q b T I B NB W). intros T' W'. now apply Q.
    + apply D. exact (other_keywords A K b1 more RO a k q b AA I B F).
  - cbn [app] in H. rewrite <- app_assoc in H. cbn [app] in H. apply head_quoted in H; try assumption. apply D. exact (other_keywords A K b1 more RO a k q b AA I B H).
Qed.

(** ** Texts that match *)
Definition items (k : tok) : list item :=
  match k with K k => [Blanks; Kw k] | W _ => [Blanks; Word] | P c => [Blanks; Ch c] | Table _ => [Blanks; Name] end.
Definition caps (l : list tok) : list pystr := flat_map (fun k => match k with W w => [w] | _ => [] end) l.
Definition tok_ok (k : tok) : Prop :=
  match k with K k => k <> EmptyString /\ forallb small (u k) = true | W w => name alnum w | P c => blank c = false /\ wordc c = false | Table _ => False end.
Definition pattern (l : list tok) : list item := flat_map items l ++ [Blanks; Stop].
Lemma star_all {A} f (k : option N -> pystr -> option A) w s x : forallb f w = true -> match s with c :: _ => f c = false | [] => True end ->
  (forall pv, k pv s = Some x) -> forall pv, star f k pv (w ++ s) = Some (w, x).
Proof.
  intros W O H. induction w as [|c w IH]; intros pv.
  - cbn [app]. destruct s as [|c s]; cbn [star]; [now rewrite H|]. rewrite O, H. reflexivity.
  - cbn [forallb] in W. apply andb_true_iff in W. destruct W as [W1 W2]. cbn [app star]. rewrite W1, (IH W2). reflexivity.
Qed.
Lemma keyword_ok x : forall k pv s, map lower x = k -> forallb small k = true -> exists pv', keyword k pv (x ++ s) = Some (pv', s).
Proof.
  induction x as [|c x IH]; intros k pv s E S; destruct k as [|a k]; try discriminate E; cbn [app keyword].
  - exists pv. now destruct s.
  - cbn [map] in E. injection E as E1 E2. cbn [forallb] in S. apply andb_true_iff in S. destruct S as [S1 S2].
    assert (L : same_letter a c = true) by now apply same_lower. rewrite L. now apply IH.
Qed.
Lemma apart_off x s : apart alnum x s -> x <> [] -> wordc (last x 96) = true -> off s.
Proof. unfold apart, off. destruct s as [|c s]; [trivial|]. intros H _ L. exact (H L). Qed.
Lemma last_word (x : pystr) d : x <> [] -> word x -> wordc (last x d) = true.
Proof.
  intros NE W. induction x as [|c x IH]; [contradiction|]. cbn [forallb] in W. apply andb_true_iff in W. destruct W as [W1 W2]. destruct x as [|c2 x]; [exact W1|].
  change (last (c :: c2 :: x) d) with (last (c2 :: x) d). apply IH; [discriminate|exact W2].
Qed.
Lemma nonblank_head T r : T <> [] -> word T -> match T ++ r with c :: _ => blank c = false | [] => True end.
Proof. apply word_head. Qed.
Lemma rx_pattern l s : written alnum l s -> Forall tok_ok l -> forall pv, rx (pattern l) pv s = Some (caps l).
Proof.
  induction 1 as [b e B E|k l b x s B SP AP WR IH]; intros F pv.
  - unfold pattern. cbn [flat_map app]. cbn [AlterModel.rx].
    assert (X : exists w, star blank (rx [Stop]) pv (b ++ e) = Some (w, [])).
    { destruct E as [->|[->| ->]].
      - exists b. apply star_all; [exact B|exact Logic.I|]. intros pv'. reflexivity.
      - exists b. apply star_all; [exact B|reflexivity|]. intros pv'. reflexivity.
      - exists b. apply star_all; [exact B|reflexivity|]. intros pv'. reflexivity. }
    destruct X as [w X]. cbn [AlterModel.rx] in X. rewrite X. reflexivity.
  - inversion F as [|? ? OK F2]; subst. specialize (IH F2). destruct k as [k|t|w|c]; cbn [spelled tok_ok] in *; try contradiction.
    + destruct OK as [NK SK]. assert (W : word x) by (eapply spelled_word; eauto). assert (NX : x <> []) by (intros ->; destruct k; [contradiction|discriminate SP]).
      change (pattern (K k :: l)) with (Blanks :: Kw k :: pattern l). change (caps (K k :: l)) with (caps l). cbn [AlterModel.rx].
      erewrite star_all; [reflexivity|exact B|now apply nonblank_head|]. intros pv'. cbn [AlterModel.rx]. destruct (keyword_ok x (u k) pv' s SP SK) as [pv2 ->]. apply IH.
    + destruct OK as [NW WW]. subst x. change (pattern (W w :: l)) with (Blanks :: Word :: pattern l). change (caps (W w :: l)) with (w :: caps l). cbn [AlterModel.rx].
      erewrite star_all; [reflexivity|exact B|now apply nonblank_head|]. intros pv'. cbn [AlterModel.rx].
      rewrite (star_all wordc (rx (pattern l)) w s (caps l)); [reflexivity|exact WW|exact (apart_off w s AP NW (last_word w 96 NW WW))|exact IH].
    + destruct OK as [BC WC]. subst x. change (pattern (P c :: l)) with (Blanks :: Ch c :: pattern l). change (caps (P c :: l)) with (caps l). cbn [AlterModel.rx].
      erewrite star_all; [reflexivity|exact B|exact BC|]. intros pv'. cbn [AlterModel.rx app]. rewrite N.eqb_refl. apply IH.
Qed.
Lemma rx_head l b0 X1 b2 X2 bT t tx s : head_ok b0 X1 b2 X2 bT -> name alnum t -> (tx = t /\ bT <> [] /\ off s \/ tx = 96 :: t ++ [96]) ->
  written alnum l s -> Forall tok_ok l -> rx (Blanks :: Kw "alter" :: Blanks :: Kw "table" :: Blanks :: Name :: pattern l) None (head b0 X1 b2 X2 bT (tx ++ s)) = Some (t :: caps l).
Proof.
  intros [B0 E1 B2 N2 E2 BT] [NT WT] TX WR F. unfold head.
  assert (W1 : word X1) by (eapply spelled_word; [exact E1|reflexivity]). assert (NX1 : X1 <> []) by (intros ->; discriminate E1).
  assert (W2 : word X2) by (eapply spelled_word; [exact E2|reflexivity]). assert (NX2 : X2 <> []) by (intros ->; discriminate E2).
  pose proof (rx_pattern l s WR F) as RP.
  assert (RN : forall pv, (tx = t -> exists c, pv = Some c /\ blank c = true) -> rx (Name :: pattern l) pv (tx ++ s) = Some (t :: caps l)).
  { intros pv PV. cbn [AlterModel.rx]. destruct TX as [(-> & _ & O)| ->].
    - destruct (PV eq_refl) as (c & -> & C). destruct t as [|d t]; [contradiction|]. assert (D : wordc d = true) by (cbn [forallb] in WT; now apply andb_true_iff in WT).
      change ((d :: t) ++ s) with (d :: t ++ s). assert (D2 : (d =? 96) = false) by (destruct (N.eqb_spec d 96) as [->|]; [rewrite punct_word in D by tauto; discriminate|reflexivity]).
      cbv iota beta. rewrite D2. unfold boundary. rewrite D, (blank_word c C). cbn [xorb]. change (d :: t ++ s) with ((d :: t) ++ s).
      rewrite (star_all wordc (rx (pattern l)) (d :: t) s (caps l)); [reflexivity|exact WT|exact O|exact RP].
    - cbn [app]. rewrite <- app_assoc. cbn [app]. change (96 =? 96) with true. cbn match.
      erewrite star_all; [reflexivity|exact WT|apply punct_word; tauto|]. intros pv'. change (96 =? 96) with true. cbn match. apply RP. }
  assert (RB : forall pv, rx (Blanks :: Name :: pattern l) pv (bT ++ tx ++ s) = Some (t :: caps l)).
  { assert (ST : forall b pv, blanks b -> (tx = t -> b <> [] \/ exists c, pv = Some c /\ blank c = true) -> exists w, star blank (rx (Name :: pattern l)) pv (b ++ tx ++ s) = Some (w, t :: caps l)).
    { induction b as [|c b IH]; intros pv B HB.
      - exists []. assert (HN : match tx ++ s with c :: _ => blank c = false | [] => True end).
        { destruct TX as [(-> & _)| ->]; [now apply nonblank_head|reflexivity]. }
        cbn [app]. assert (G : rx (Name :: pattern l) pv (tx ++ s) = Some (t :: caps l)) by (apply RN; intros E; destruct (HB E) as [X|X]; [contradiction|exact X]).
        destruct (tx ++ s) as [|c r]; cbn [star]; [now rewrite G|]. now rewrite HN, G.
      - cbn [forallb] in B. apply andb_true_iff in B. destruct B as [C B]. destruct (IH (Some c) B) as [w H]; [intros _; right; eauto|]. exists (c :: w). cbn [app star]. now rewrite C, H. }
    intros pv. change (rx (Blanks :: Name :: pattern l) pv (bT ++ tx ++ s)) with (match star blank (rx (Name :: pattern l)) pv (bT ++ tx ++ s) with Some (_, x) => Some x | None => None end).
    destruct (ST bT pv BT) as [w ->]; [|reflexivity]. intros E. left. destruct TX as [(_ & NB & _)|X]; [exact NB|]. exfalso. subst tx. rewrite <- E in WT. cbn [forallb] in WT. rewrite punct_word in WT by tauto. discriminate WT. }
  assert (RT : forall pv, rx (Kw "table" :: Blanks :: Name :: pattern l) pv (X2 ++ bT ++ tx ++ s) = Some (t :: caps l)).
  { intros pv. change (match keyword (u "table") pv (X2 ++ bT ++ tx ++ s) with Some (pv', r) => rx (Blanks :: Name :: pattern l) pv' r | None => None end = Some (t :: caps l)).
    destruct (keyword_ok X2 _ pv (bT ++ tx ++ s) E2 eq_refl) as [pv' ->]. apply RB. }
  assert (RK : forall pv, rx (Kw "alter" :: Blanks :: Kw "table" :: Blanks :: Name :: pattern l) pv (X1 ++ b2 ++ X2 ++ bT ++ tx ++ s) = Some (t :: caps l)).
  { intros pv. change (match keyword (u "alter") pv (X1 ++ b2 ++ X2 ++ bT ++ tx ++ s) with Some (pv', r) => rx (Blanks :: Kw "table" :: Blanks :: Name :: pattern l) pv' r | None => None end = Some (t :: caps l)).
    destruct (keyword_ok X1 _ pv (b2 ++ X2 ++ bT ++ tx ++ s) E1 eq_refl) as [pv' ->].
    change (match star blank (rx (Kw "table" :: Blanks :: Name :: pattern l)) pv' (b2 ++ X2 ++ bT ++ tx ++ s) with Some (_, x) => Some x | None => None end = Some (t :: caps l)).
    erewrite star_all; [reflexivity|exact B2|now apply nonblank_head|exact RT]. }
  change (match star blank (rx (Kw "alter" :: Blanks :: Kw "table" :: Blanks :: Name :: pattern l)) None (b0 ++ X1 ++ b2 ++ X2 ++ bT ++ tx ++ s) with Some (_, x) => Some x | None => None end = Some (t :: caps l)).
  erewrite star_all; [reflexivity|exact B0|now apply nonblank_head|exact RK].
Qed.

(** ** The whole statement *)
Definition action (x : change) : string := match x with AddPrimary _ | AddForeign _ _ _ _ | AddIndex _ _ | AddFulltext _ _ | AddUnique _ _ => "add" | _ => "drop" end.
Definition kind (x : change) : string :=
  match x with
  | AddPrimary _ | DropPrimary => "primary" | AddForeign _ _ _ _ => "constraint" | DropForeign _ => "foreign"
  | AddIndex _ _ | DropIndex _ => "index" | AddFulltext _ _ => "fulltext" | AddUnique _ _ => "unique"
  end.
Lemma apart_ne x b y : apart alnum x (b ++ y) -> x <> [] -> word x -> off y \/ b <> [].
Proof.
  intros H N W. destruct b as [|c b]; [left|right; discriminate]. exact (apart_off x y H N (last_word x 96 N W)).
Qed.
Lemma not_off x y : x <> [] -> word x -> ~ off (x ++ y).
Proof. destruct x as [|c x]; [contradiction|]. cbn [forallb app off]. intros _ W O. rewrite O in W. discriminate W. Qed.
Lemma gap x b y z : apart alnum x (b ++ y ++ z) -> x <> [] -> word x -> y <> [] -> word y -> b <> [].
Proof. intros H N W NY WY. destruct (apart_ne _ _ _ H N W) as [O|O]; [|exact O]. now apply not_off in O. Qed.
Lemma written_kw k l s : written alnum (K k :: l) s -> k <> EmptyString -> forallb small (u k) = true ->
  exists b x r, s = b ++ x ++ r /\ blanks b /\ map lower x = u k /\ x <> [] /\ word x /\ apart alnum x r /\ off r /\ written alnum l r.
Proof.
  intros H NK SK. inversion H as [|? ? b x r B SP AP WR]; subst. cbn [spelled] in SP. assert (NX : x <> []) by (intros ->; destruct k; [contradiction|discriminate SP]).
  assert (W : word x) by (eapply spelled_word; eauto). exists b, x, r. repeat split; try assumption. exact (apart_off x r AP NX (last_word x 96 NX W)).
Qed.
Lemma tok_names t x : names_ok alnum t x -> Forall tok_ok (change_toks x).
Proof.
  assert (P40 : tok_ok (P 40)) by (split; [reflexivity|apply punct_word; tauto]). assert (P41 : tok_ok (P 41)) by (split; [reflexivity|apply punct_word; tauto]).
  intros H. apply Forall_inv_tail in H. destruct x; cbn [change_names] in H; repeat match goal with H : Forall _ (_ :: _) |- _ => inversion H; subst; clear H end; cbn [change_toks in_parens app]; repeat (constructor; [first [exact P40|exact P41|split; (discriminate || reflexivity)|cbn [tok_ok]; tauto]|]); constructor.
Qed.
Lemma taken_apart t x s : names_ok alnum t x -> written alnum (toks t x) s ->
  exists b0 X1 b2 X2 bT tx b A b1 Y more,
    s = head b0 X1 b2 X2 bT (tx ++ b ++ A ++ b1 ++ Y ++ more) /\ head_ok b0 X1 b2 X2 bT /\
    (tx = t /\ bT <> [] /\ b <> [] \/ tx = 96 :: t ++ [96]) /\ blanks b /\ rest_ok A Y b1 more /\
    map lower A = u (action x) /\ map lower Y = u (kind x) /\ written alnum (change_toks x) (b ++ A ++ b1 ++ Y ++ more).
Proof.
  intros OK H. pose proof (Forall_inv OK) as [NT WT]. apply Forall_inv_tail in OK. apply written_kw in H; [|discriminate|reflexivity]. destruct H as (b0 & X1 & r0 & -> & B0 & E1 & N1 & W1 & AP1 & O1 & H).
  apply written_kw in H; [|discriminate|reflexivity]. destruct H as (b2 & X2 & r2 & -> & B2 & E2 & N2 & W2 & AP2 & O2 & H).
  inversion H as [|? ? bT tx r BT SP AP WR]; subst. cbn [spelled] in SP. clear H.
  assert (CT : change_toks x = K (action x) :: K (kind x) :: skipn 2 (change_toks x)) by (destruct x; reflexivity).
  pose proof WR as WR0. rewrite CT in WR. apply written_kw in WR; [|destruct x; discriminate|destruct x; reflexivity].
  destruct WR as (b & A & r1 & -> & B & EA & NA & WA & APA & OA & WR).
  apply written_kw in WR; [|destruct x; discriminate|destruct x; reflexivity]. destruct WR as (b1 & Y & more & -> & B1 & EY & NY & WY & APY & OY & WR).
  exists b0, X1, b2, X2, bT, tx, b, A, b1, Y, more. split; [reflexivity|]. split; [|split; [|split; [exact B|split; [|split; [exact EA|split; [exact EY|exact WR0]]]]]].
  - split; try assumption. exact (gap _ _ _ _ AP1 N1 W1 N2 W2).
  - destruct SP as [->| ->]; [left|right; reflexivity]. split; [reflexivity|]. split; [exact (gap _ _ _ _ AP2 N2 W2 NT WT)|exact (gap _ _ _ _ AP NT WT NA WA)].
  - split.
    + rewrite EA. destruct x; cbn [action]; auto.
    + exact B1.
    + exact (gap _ _ _ _ APA NA WA NY WY).
    + rewrite EY. destruct x; cbn [kind In]; auto 8.
    + exact OY.
    + intros EF. rewrite EY in EF. destruct x; try discriminate EF. cbn [change_toks skipn] in WR.
      apply written_kw in WR; [|discriminate|reflexivity]. destruct WR as (c2 & Z & r & -> & C2 & EZ & NZ & WZ & APZ & OZ & WR).
      inversion WR as [|? ? b3 n' r3 B3 SP3 AP3 WR3]; subst. cbn [spelled] in SP3. subst n'. destruct (Forall_inv OK) as [Nn Wn].
      exists c2, Z, b3, n, r3. repeat split; try assumption. exact (gap _ _ _ _ APZ NZ WZ Nn Wn).
Qed.
Lemma pat_small : small_items add_primary /\ small_items drop_primary /\ small_items add_foreign /\ small_items drop_foreign /\
  small_items (add_named "index") /\ small_items (add_named "fulltext") /\ small_items (add_named "unique") /\ small_items drop_index.
Proof. repeat split; repeat (constructor; [first [exact Logic.I|reflexivity]|]); constructor. Qed.
Local Opaque AlterModel.rx.
Lemma parse_written t x s : names_ok alnum t x -> written alnum (toks t x) s -> parse_alter_key alnum s = change_dict t x.
Proof.
  intros OK WR. destruct (taken_apart t x s OK WR) as (b0 & X1 & b2 & X2 & bT & tx & b & A & b1 & Y & more & -> & HD & TX & B & RO & EA & EY & WC).
  set (s := head b0 X1 b2 X2 bT (tx ++ b ++ A ++ b1 ++ Y ++ more)) in *.
  pose proof (tok_names t x OK) as TO. assert (NT : name alnum t) by exact (Forall_inv OK).
  assert (OWN : rx (Blanks :: Kw "alter" :: Blanks :: Kw "table" :: Blanks :: Name :: pattern (change_toks x)) None s = Some (t :: caps (change_toks x))).
  { apply rx_head; try assumption. destruct TX as [(T1 & T2 & T3)|T]; [left|right; exact T]. split; [exact T1|]. split; [exact T2|]. now apply off_b. }
  assert (NO : forall a k q, a = "add"%string \/ a = "drop"%string -> In (u k) ks -> (forall b T, blanks b -> b <> [] -> word T -> ~ fits q (T ++ b ++ A ++ b1 ++ Y ++ more)) ->
             small_items (alter_table (Kw a :: Blanks :: Kw k :: q)) -> ~ (u (action x) = u a /\ u (kind x) = u k) -> rx (alter_table (Kw a :: Blanks :: Kw k :: q)) None s = None).
  { intros a k q AA I Q SI D. apply rx_none; [exact SI|]. eapply no_match; try eassumption. rewrite EA, EY. exact D. }
  destruct pat_small as (S1 & S2 & S3 & S4 & S5 & S6 & S7 & S8).
  assert (N1 : ~ (u (action x) = u "add" /\ u (kind x) = u "primary") -> rx add_primary None s = None).
  { apply NO; [now left|clear; cbn [ks In map]; auto 10| |exact S1]. intros. now apply (key_ch A Y b1 more RO). }
  assert (N2 : ~ (u (action x) = u "drop" /\ u (kind x) = u "primary") -> rx drop_primary None s = None).
  { apply NO; [now right|clear; cbn [ks In map]; auto 10| |exact S2]. intros. now apply (key_stop A Y b1 more RO). }
  assert (N3 : ~ (u (action x) = u "add" /\ u (kind x) = u "constraint") -> rx add_foreign None s = None).
  { apply NO; [now left|clear; cbn [ks In map]; auto 10| |exact S3]. intros. now apply (word_foreign A Y b1 more RO). }
  assert (N4 : ~ (u (action x) = u "drop" /\ u (kind x) = u "foreign") -> rx drop_foreign None s = None).
  { apply NO; [now right|clear; cbn [ks In map]; auto 10| |exact S4]. intros. now apply (key_word_stop A Y b1 more RO). }
  assert (N5 : ~ (u (action x) = u "add" /\ u (kind x) = u "index") -> rx (add_named "index") None s = None).
  { unfold add_named in S5 |- *. apply (NO "add"%string "index"%string); [now left|clear; cbn [ks In map]; auto 10| |exact S5]. intros. now apply (word_ch A Y b1 more RO). }
  assert (N6 : ~ (u (action x) = u "add" /\ u (kind x) = u "fulltext") -> rx (add_named "fulltext") None s = None).
  { unfold add_named in S6 |- *. apply (NO "add"%string "fulltext"%string); [now left|clear; cbn [ks In map]; auto 10| |exact S6]. intros. now apply (word_ch A Y b1 more RO). }
  assert (N7 : ~ (u (action x) = u "add" /\ u (kind x) = u "unique") -> rx (add_named "unique") None s = None).
  { unfold add_named in S7 |- *. apply (NO "add"%string "unique"%string); [now left|clear; cbn [ks In map]; auto 10| |exact S7]. intros. now apply (word_ch A Y b1 more RO). }
  clearbody s. clear - OWN N1 N2 N3 N4 N5 N6 N7 OK HA. unfold parse_alter_key.
  assert (SP : forall c, name alnum c -> values_of c = column_list c).
  { intros c [_ W]. unfold values_of, column_list. rewrite split_nochar; [reflexivity|].
    destruct (has_char 44 c) eqn:H; [|reflexivity]. exfalso. apply existsb_exists in H. destruct H as (y & I & E). apply N.eqb_eq in E. subst y. rewrite forallb_forall in W. apply W in I.
    unfold name_char in I. rewrite (HA 44) in I by lia. discriminate I. }
  assert (OK' : Forall (name alnum) (change_names x)) by exact (Forall_inv_tail OK). clear OK. rename OK' into OK. destruct x;
    cbn [change_names] in OK; repeat match goal with H : Forall _ (_ :: _) |- _ => inversion H; subst; clear H end.
  - change (Blanks :: Kw "alter" :: Blanks :: Kw "table" :: Blanks :: Name :: pattern (change_toks (AddPrimary c))) with add_primary in OWN. rewrite OWN. cbn [matched caps change_toks in_parens flat_map app]. now rewrite SP.
  - rewrite N1 by (intros [D _]; vm_compute in D; discriminate D).
    change (Blanks :: Kw "alter" :: Blanks :: Kw "table" :: Blanks :: Name :: pattern (change_toks DropPrimary)) with drop_primary in OWN. rewrite OWN. reflexivity.
  - rewrite N1 by (intros [_ D]; vm_compute in D; discriminate D). rewrite N2 by (intros [D _]; vm_compute in D; discriminate D).
    change (Blanks :: Kw "alter" :: Blanks :: Kw "table" :: Blanks :: Name :: pattern (change_toks (AddForeign n c rt rc))) with add_foreign in OWN. rewrite OWN.
    cbn [matched caps change_toks in_parens flat_map app]. rewrite !SP by tauto. reflexivity.
  - rewrite N1 by (intros [D _]; vm_compute in D; discriminate D). rewrite N2 by (intros [_ D]; vm_compute in D; discriminate D). rewrite N3 by (intros [D _]; vm_compute in D; discriminate D).
    change (Blanks :: Kw "alter" :: Blanks :: Kw "table" :: Blanks :: Name :: pattern (change_toks (DropForeign n))) with drop_foreign in OWN. rewrite OWN. reflexivity.
  - rewrite N1 by (intros [_ D]; vm_compute in D; discriminate D). rewrite N2 by (intros [D _]; vm_compute in D; discriminate D). rewrite N3 by (intros [_ D]; vm_compute in D; discriminate D). rewrite N4 by (intros [D _]; vm_compute in D; discriminate D).
    change (Blanks :: Kw "alter" :: Blanks :: Kw "table" :: Blanks :: Name :: pattern (change_toks (AddIndex n c))) with (add_named "index") in OWN. rewrite OWN.
    cbn [matched caps change_toks in_parens flat_map app]. rewrite SP by tauto. reflexivity.
  - rewrite N1 by (intros [_ D]; vm_compute in D; discriminate D). rewrite N2 by (intros [D _]; vm_compute in D; discriminate D). rewrite N3 by (intros [_ D]; vm_compute in D; discriminate D). rewrite N4 by (intros [D _]; vm_compute in D; discriminate D).
    rewrite N5 by (intros [_ D]; vm_compute in D; discriminate D).
    change (Blanks :: Kw "alter" :: Blanks :: Kw "table" :: Blanks :: Name :: pattern (change_toks (AddFulltext n c))) with (add_named "fulltext") in OWN. rewrite OWN.
    cbn [matched caps change_toks in_parens flat_map app]. rewrite SP by tauto. reflexivity.
  - rewrite N1 by (intros [_ D]; vm_compute in D; discriminate D). rewrite N2 by (intros [D _]; vm_compute in D; discriminate D). rewrite N3 by (intros [_ D]; vm_compute in D; discriminate D). rewrite N4 by (intros [D _]; vm_compute in D; discriminate D).
    rewrite N5 by (intros [_ D]; vm_compute in D; discriminate D). rewrite N6 by (intros [_ D]; vm_compute in D; discriminate D).
    change (Blanks :: Kw "alter" :: Blanks :: Kw "table" :: Blanks :: Name :: pattern (change_toks (AddUnique n c))) with (add_named "unique") in OWN. rewrite OWN.
    cbn [matched caps change_toks in_parens flat_map app]. rewrite SP by tauto. reflexivity.
  - rewrite N1 by (intros [D _]; vm_compute in D; discriminate D). rewrite N2 by (intros [_ D]; vm_compute in D; discriminate D). rewrite N3 by (intros [D _]; vm_compute in D; discriminate D). rewrite N4 by (intros [_ D]; vm_compute in D; discriminate D).
    rewrite N5 by (intros [D _]; vm_compute in D; discriminate D). rewrite N6 by (intros [D _]; vm_compute in D; discriminate D). rewrite N7 by (intros [D _]; vm_compute in D; discriminate D).
    change (Blanks :: Kw "alter" :: Blanks :: Kw "table" :: Blanks :: Name :: pattern (change_toks (DropIndex n))) with drop_index in OWN. rewrite OWN. reflexivity.
Qed.
Local Transparent AlterModel.rx.

(** ** What a recognised text looks like *)
Definition punct (c : N) : bool := (c =? 96) || (c =? 40) || (c =? 41) || (c =? 59).
Definition plain_char (c : N) : bool := wordc c || blank c || punct c.
Definition parens (p : list item) : Prop := Forall (fun i => match i with Ch c => c = 40 \/ c = 41 | _ => True end) p.
Lemma word_plain w : word w -> forallb plain_char w = true.
Proof. induction w as [|c w IH]; [reflexivity|]. cbn [forallb]. intros H. apply andb_true_iff in H. destruct H as [H1 H2]. unfold plain_char at 1. rewrite H1, (IH H2). reflexivity. Qed.
Lemma blanks_plain w : blanks w -> forallb plain_char w = true.
Proof.
  induction w as [|c w IH]; [reflexivity|]. cbn [forallb]. intros H. apply andb_true_iff in H. destruct H as [H1 H2]. unfold plain_char at 1. rewrite H1, (IH H2).
  now rewrite orb_true_r.
Qed.
Lemma stop_shape s : stop s = true -> s = [] \/ s = [10] \/ s = [59] \/ s = [59; 10].
Proof.
  destruct s as [|c [|d [|e s]]]; cbn [stop at_end]; [tauto| | |].
  - rewrite andb_true_r. destruct (N.eqb_spec c 59) as [->|]; [tauto|]. destruct (N.eqb_spec c 10) as [->|]; [tauto|discriminate].
  - destruct (N.eqb_spec c 59) as [->|]; cbn [andb]; [|discriminate]. destruct (N.eqb_spec d 10) as [->|]; [tauto|discriminate].
  - rewrite andb_false_r. discriminate.
Qed.
Lemma fits_plain q : parens q -> small_items q -> forall s, fits (q ++ [Stop]) s -> forallb plain_char s = true.
Proof.
  induction 1 as [|i q P F IH]; intros SM s H; cbn [app] in H.
  - cbn [fits] in H. apply stop_shape in H. assert (plain_char 10 = true) by (unfold plain_char; cbn; now rewrite orb_true_r). assert (plain_char 59 = true) by (unfold plain_char; cbn; now rewrite orb_true_r).
    destruct H as [->|[->|[->| ->]]]; cbn [forallb]; repeat (rewrite H0 || rewrite H1); try reflexivity; now rewrite ?H, ?H0.
  - inversion SM as [|? ? S1 S2]; subst. specialize (IH S2). assert (QQ : plain_char 96 = true) by (unfold plain_char; cbn; now rewrite orb_true_r).
    destruct i as [|k| | |c|]; cbn [fits] in H.
    + destruct H as (b & r & -> & B & H). rewrite forallb_app, (IH r H), blanks_plain by exact B. reflexivity.
    + destruct H as (x & r & -> & X & H). rewrite forallb_app, (IH r H), (word_plain x); [reflexivity|]. eapply spelled_word; eauto.
    + destruct H as (w & r & [->| ->] & W & H).
      * rewrite forallb_app, (IH r H), word_plain by exact W. reflexivity.
      * cbn [forallb]. rewrite forallb_app. cbn [forallb]. rewrite QQ, (IH r H), word_plain by exact W. reflexivity.
    + destruct H as (w & r & -> & W & H). rewrite forallb_app, (IH r H), word_plain by exact W. reflexivity.
    + destruct H as (r & -> & H). cbn [forallb]. rewrite (IH r H), andb_true_r. destruct P as [->| ->]; unfold plain_char; cbn; now rewrite orb_true_r.
    + apply stop_shape in H. assert (P10 : plain_char 10 = true) by (unfold plain_char; cbn; now rewrite orb_true_r). assert (P59 : plain_char 59 = true) by (unfold plain_char; cbn; now rewrite orb_true_r).
      destruct H as [->|[->|[->| ->]]]; cbn [forallb]; rewrite ?P10, ?P59; reflexivity.
Qed.
(** How often a character occurs. *)
Fixpoint times (c : N) (s : pystr) : nat := match s with [] => O | d :: r => ((if N.eqb c d then 1 else 0) + times c r)%nat end.
Lemma times_app c a b : times c (a ++ b) = (times c a + times c b)%nat.
Proof. induction a as [|d a IH]; cbn [times app]; [reflexivity|]. rewrite IH. lia. Qed.
Lemma times_none c f w : f c = false -> forallb f w = true -> times c w = O.
Proof.
  intros C. induction w as [|d w IH]; [reflexivity|]. cbn [forallb times]. intros H. apply andb_true_iff in H. destruct H as [H1 H2].
  destruct (N.eqb_spec c d) as [->|]; [congruence|]. now rewrite (IH H2).
Qed.
Definition names_in (p : list item) : nat := length (filter (fun i => match i with Name => true | _ => false end) p).
Lemma fits_quotes q : parens q -> small_items q -> forall s, fits (q ++ [Stop]) s -> (times 96 s <= 2 * names_in q)%nat.
Proof.
  assert (WQ : wordc 96 = false) by (apply punct_word; tauto). assert (ST : forall s, stop s = true -> times 96 s = O).
  { intros s H. apply stop_shape in H. destruct H as [->|[->|[->| ->]]]; reflexivity. }
  induction 1 as [|i q P F IH]; intros SM s H; cbn [app] in H; unfold names_in in *.
  - cbn [fits] in H. rewrite (ST s H). cbn. lia.
  - inversion SM as [|? ? S1 S2]; subst. specialize (IH S2). destruct i as [|k| | |c|]; cbn [fits] in H; cbn [filter length].
    + destruct H as (b & r & -> & B & H). rewrite times_app, (times_none 96 blank b) by (reflexivity || exact B). apply IH in H. lia.
    + destruct H as (x & r & -> & X & H). rewrite times_app, (times_none 96 wordc x); [apply IH in H; lia|exact WQ|]. eapply spelled_word; eauto.
    + destruct H as (w & r & [->| ->] & W & H); apply IH in H.
      * rewrite times_app, (times_none 96 wordc w) by assumption. lia.
      * cbn [times]. rewrite times_app. cbn [times]. rewrite (times_none 96 wordc w) by assumption. cbn [N.eqb Pos.eqb]. lia.
    + destruct H as (w & r & -> & W & H). rewrite times_app, (times_none 96 wordc w) by assumption. apply IH in H. lia.
    + destruct H as (r & -> & H). cbn [times]. apply IH in H. destruct P as [->| ->]; cbn [N.eqb Pos.eqb]; lia.
    + rewrite (ST s H). lia.
Qed.
(** A semicolon is the end. *)
Lemma before_semicolon f w r : f 59 = false -> forallb f w = true -> forall a b, w ++ r = a ++ 59 :: b -> exists a2, r = a2 ++ 59 :: b.
Proof.
  intros F. induction w as [|c w IH]; intros H a b E; [now exists a|]. cbn [forallb] in H. apply andb_true_iff in H. destruct H as [H1 H2].
  destruct a as [|d a]; cbn [app] in E; injection E as E1 E2; [congruence|]. exact (IH H2 a b E2).
Qed.
Lemma fits_semicolon q : parens q -> small_items q -> forall s, fits (q ++ [Stop]) s -> forall a b, s = a ++ 59 :: b -> b = [] \/ b = [10].
Proof.
  assert (WQ : wordc 59 = false) by (apply punct_word; tauto). assert (ST : forall s, stop s = true -> forall a b, s = a ++ 59 :: b -> b = [] \/ b = [10]).
  { intros s H a b E. apply stop_shape in H. destruct H as [->|[->|[->| ->]]]; destruct a as [|a1 [|a2 [|a3 a]]]; try discriminate E; injection E; intros; subst; try discriminate; auto. }
  induction 1 as [|i q P F IH]; intros SM s H a b E; cbn [app] in H.
  - exact (ST s H a b E).
  - pose proof (Forall_inv SM) as S1. pose proof (Forall_inv_tail SM) as S2. subst s. specialize (IH S2). destruct i as [|k| | |c|]; cbn [fits] in H.
    + destruct H as (w & r & E & B & H). symmetry in E. destruct (before_semicolon blank w r (eq_refl _) B _ _ E) as [a2 E2]. exact (IH r H a2 b E2).
    + destruct H as (x & r & E & X & H). symmetry in E. destruct (before_semicolon wordc x r WQ (spelled_word _ _ X S1) _ _ E) as [a2 E2]. exact (IH r H a2 b E2).
    + destruct H as (w & r & [E|E] & W & H); symmetry in E.
      * destruct (before_semicolon wordc w r WQ W _ _ E) as [a2 E2]. exact (IH r H a2 b E2).
      * destruct a as [|c a]; cbn [app] in E; [discriminate E|]. injection E as _ E. destruct (before_semicolon wordc w _ WQ W _ _ E) as [a2 E2].
        destruct a2 as [|c2 a2]; cbn [app] in E2; [discriminate E2|]. injection E2 as _ E2. exact (IH r H a2 b E2).
    + destruct H as (w & r & E & B & H). symmetry in E. destruct (before_semicolon wordc w r WQ B _ _ E) as [a2 E2]. exact (IH r H a2 b E2).
    + destruct H as (r & E & H). destruct a as [|d a]; cbn [app] in E; injection E as E1 E; [subst c; destruct P; discriminate|]. symmetry in E. exact (IH r H a b E).
    + exact (ST _ H a b eq_refl).
Qed.
(** ** Every pattern *)
Definition body (p : list item) : list item := removelast p.
Lemma all_bodies p : In p [add_primary; drop_primary; add_foreign; drop_foreign; add_named "index"; add_named "fulltext"; add_named "unique"; drop_index] ->
  p = body p ++ [Stop] /\ parens (body p) /\ small_items (body p) /\ small_items p /\ names_in (body p) = 1%nat.
Proof.
  cbn [In]. intros H. repeat (destruct H as [<-|H]); try contradiction; (split; [reflexivity|split; [|split; [|split; [|reflexivity]]]]; repeat (constructor; [first [exact Logic.I|reflexivity|left; reflexivity|right; reflexivity]|]); constructor).
Qed.
Local Opaque AlterModel.rx.
Lemma parse_empty s : (forall p, p = body p ++ [Stop] -> parens (body p) -> small_items (body p) -> names_in (body p) = 1%nat -> ~ fits p s) -> parse_alter_key alnum s = [].
Proof.
  intros H. assert (R : forall p, In p [add_primary; drop_primary; add_foreign; drop_foreign; add_named "index"; add_named "fulltext"; add_named "unique"; drop_index] -> rx p None s = None).
  { intros p I. destruct (all_bodies p I) as (E & P & S1 & S2 & Nm). apply rx_none; [exact S2|]. now apply H. }
  unfold parse_alter_key. rewrite !R by (cbn [In]; auto 10). reflexivity.
Qed.
Local Transparent AlterModel.rx.
Lemma other_character s c : In c s -> name_char alnum c = false -> is_blank c = false -> ~ In c [96; 40; 41; 59] -> parse_alter_key alnum s = [].
Proof.
  intros I W B P. apply parse_empty. intros p E PA SM _ F. rewrite E in F. apply fits_plain in F; [|exact PA|exact SM]. rewrite forallb_forall in F. apply F in I.
  unfold plain_char in I. change (wordc c) with (name_char alnum c) in I. change (blank c) with (is_blank c) in I. rewrite W, B in I. cbn [orb] in I.
  apply P. unfold punct in I. cbn [In]. lia.
Qed.
Lemma third_quote a b c d : parse_alter_key alnum (a ++ 96 :: b ++ 96 :: c ++ 96 :: d) = [].
Proof.
  apply parse_empty. intros p E PA SM NI F. rewrite E in F. apply fits_quotes in F; [|exact PA|exact SM]. rewrite NI in F.
  rewrite times_app in F. cbn [times] in F. rewrite times_app in F. cbn [times] in F. rewrite times_app in F. cbn [times N.eqb Pos.eqb] in F. lia.
Qed.
Lemma after_semicolon a b : b <> [] -> b <> [10] -> parse_alter_key alnum (a ++ 59 :: b) = [].
Proof.
  intros N1 N2. apply parse_empty. intros p E PA SM NI F. rewrite E in F. destruct (fits_semicolon _ PA SM _ F a b eq_refl); contradiction.
Qed.
(** ** The names read *)
Definition groups (p : list item) : nat := length (filter (fun i => match i with Name | Word => true | _ => false end) p).
Lemma rx_caps q : forall prev s l, rx (q ++ [Stop]) prev s = Some l -> ~ In Stop q -> length l = groups q /\ Forall (fun w => word w) l.
Proof.
  unfold groups. induction q as [|i q IH]; intros prev s l H NS.
  - cbn [app AlterModel.rx] in H. destruct (stop s); [|discriminate]. injection H as <-. split; [reflexivity|constructor].
  - assert (NS' : ~ In Stop q) by (intros X; apply NS; now right). destruct i as [|k| | |c|]; cbn [app AlterModel.rx filter length] in *.
    + destruct (star blank _ prev s) as [[b x]|] eqn:E; [|discriminate]. injection H as <-. apply star_some in E. destruct E as (r & pv & -> & B & E). exact (IH _ _ _ E NS').
    + destruct (keyword (u k) prev s) as [[pv r]|]; [|discriminate]. exact (IH _ _ _ H NS').
    + match type of H with match ?q with _ => _ end = _ => destruct q as [[w x]|] eqn:Q end.
      * injection H as <-. destruct s as [|c r]; [discriminate|]. destruct (N.eqb_spec c 96) as [->|]; [|discriminate]. apply star_some in Q. destruct Q as (r' & pv & -> & W & Q).
        destruct r' as [|d r']; [discriminate|]. destruct (N.eqb_spec d 96) as [->|]; [|discriminate]. destruct (IH _ _ _ Q NS') as [L A]. split; [cbn [length]; now rewrite L|now constructor].
      * destruct (boundary alnum prev s); [|discriminate]. destruct (star wordc _ prev s) as [[w x]|] eqn:E; [|discriminate]. injection H as <-. apply star_some in E.
        destruct E as (r & pv & -> & W & E). destruct (IH _ _ _ E NS') as [L A]. split; [cbn [length]; now rewrite L|now constructor].
    + destruct (star wordc _ prev s) as [[w x]|] eqn:E; [|discriminate]. injection H as <-. apply star_some in E.
      destruct E as (r & pv & -> & W & E). destruct (IH _ _ _ E NS') as [L A]. split; [cbn [length]; now rewrite L|now constructor].
    + destruct s as [|x r]; [discriminate|]. destruct (x =? c); [|discriminate]. exact (IH _ _ _ H NS').
    + exfalso. apply NS. now left.
Qed.

Local Opaque AlterModel.rx.
Lemma matched_case (Q : dict json -> Prop) r f rest : (forall l, r = Some l -> exists d, f l = Some d /\ Q d) -> Q rest -> Q (matched r f rest).
Proof. unfold matched. destruct r as [l|]; [|tauto]. intros H _. destruct (H l eq_refl) as (d & -> & D). exact D. Qed.
Lemma values_word c : word c -> values_of c = column_list c.
Proof.
  intros W. unfold values_of, column_list. rewrite split_nochar; [reflexivity|].
  destruct (has_char 44 c) eqn:H; [|reflexivity]. exfalso. apply existsb_exists in H. destruct H as (y & I & E). apply N.eqb_eq in E. subst y. rewrite forallb_forall in W. apply W in I.
  rewrite word_ascii in I by lia. discriminate I.
Qed.
Definition some_change (d : dict json) : Prop :=
  d = [] \/ exists t x, d = change_dict t x /\ Forall (fun w => forallb (name_char alnum) w = true) (t :: change_names x).
Lemma parse_shape s : some_change (parse_alter_key alnum s).
Proof.
  assert (C : forall p l, In p [add_primary; drop_primary; add_foreign; drop_foreign; add_named "index"; add_named "fulltext"; add_named "unique"; drop_index] ->
            rx p None s = Some l -> length l = groups (body p) /\ Forall (fun w => word w) l).
  { intros p l I H. destruct (all_bodies p I) as (E & _). rewrite E in H. apply (rx_caps (body p) None s l H). clear - I. cbn [In] in I.
    destruct I as [<-|[<-|[<-|[<-|[<-|[<-|[<-|[<-|[]]]]]]]]]; cbn; intuition discriminate. }
  unfold parse_alter_key. repeat apply matched_case; [..|now left].
  1: intros l H; destruct (C add_primary l ltac:(cbn [In]; auto 10) H) as [L W].
  2: intros l H; destruct (C drop_primary l ltac:(cbn [In]; auto 10) H) as [L W].
  3: intros l H; destruct (C add_foreign l ltac:(cbn [In]; auto 10) H) as [L W].
  4: intros l H; destruct (C drop_foreign l ltac:(cbn [In]; auto 10) H) as [L W].
  5: intros l H; destruct (C (add_named "index") l ltac:(cbn [In]; auto 10) H) as [L W].
  6: intros l H; destruct (C (add_named "fulltext") l ltac:(cbn [In]; auto 10) H) as [L W].
  7: intros l H; destruct (C (add_named "unique") l ltac:(cbn [In]; auto 10) H) as [L W].
  8: intros l H; destruct (C drop_index l ltac:(cbn [In]; auto 10) H) as [L W].
  all: cbn in L; clear - L W HA.
  - destruct l as [|t [|c [|]]]; try discriminate L. eexists. split; [reflexivity|]. right. exists t, (AddPrimary c). split; [|exact W]. rewrite values_word; [reflexivity|]. now inversion_clear W as [|? ? _ W1]; inversion W1.
  - destruct l as [|t [|]]; try discriminate L. eexists. split; [reflexivity|]. right. exists t, DropPrimary. split; [reflexivity|exact W].
  - destruct l as [|t [|n [|c [|rt [|rc [|]]]]]]; try discriminate L. eexists. split; [reflexivity|]. right. exists t, (AddForeign n c rt rc). split; [|exact W].
    rewrite Forall_forall in W. rewrite !values_word by (apply W; cbn [In]; tauto). reflexivity.
  - destruct l as [|t [|n [|]]]; try discriminate L. eexists. split; [reflexivity|]. right. exists t, (DropForeign n). split; [reflexivity|exact W].
  - destruct l as [|t [|n [|c [|]]]]; try discriminate L. eexists. split; [reflexivity|]. right. exists t, (AddIndex n c). split; [|exact W].
    rewrite Forall_forall in W. rewrite !values_word by (apply W; cbn [In]; tauto). reflexivity.
  - destruct l as [|t [|n [|c [|]]]]; try discriminate L. eexists. split; [reflexivity|]. right. exists t, (AddFulltext n c). split; [|exact W].
    rewrite Forall_forall in W. rewrite !values_word by (apply W; cbn [In]; tauto). reflexivity.
  - destruct l as [|t [|n [|c [|]]]]; try discriminate L. eexists. split; [reflexivity|]. right. exists t, (AddUnique n c). split; [|exact W].
    rewrite Forall_forall in W. rewrite !values_word by (apply W; cbn [In]; tauto). reflexivity.
  - destruct l as [|t [|n [|]]]; try discriminate L. eexists. split; [reflexivity|]. right. exists t, (DropIndex n). split; [reflexivity|exact W].
Qed.
Local Transparent AlterModel.rx.

(** ** Written out *)
Lemma format_change t x : (match x with AddPrimary _ | DropPrimary | AddForeign _ _ _ _ => True | _ => hd [] (change_names x) <> [] end) ->
  format_alter_key (change_dict t x) = Ok (Some (alter_text t x)).
Proof.
  intros H. assert (R : forall a, (u "alter table " ++ t ++ u " ") ++ a = u "alter table " ++ t ++ u " " ++ a) by (intros a; now rewrite <- !app_assoc).
  destruct x as [c| |n c rt rc|n|n c|n c|n c|n]; cbn [change_names hd] in H.
  - transitivity (Ok (Some ((u "alter table " ++ t ++ u " ") ++ u "add primary key(" ++ c ++ u ");"))); [reflexivity|]. rewrite R. reflexivity.
  - transitivity (Ok (Some ((u "alter table " ++ t ++ u " ") ++ u "drop primary key;"))); [reflexivity|]. rewrite R. reflexivity.
  - transitivity (Ok (Some ((u "alter table " ++ t ++ u " ") ++ u "add constraint " ++ n ++ u " foreign key(" ++ c ++ u ") REFERENCES " ++ rt ++ u "(" ++ rc ++ u ");"))); [reflexivity|]. rewrite R. reflexivity.
  - destruct n as [|a n]; [contradiction|]. transitivity (Ok (Some ((u "alter table " ++ t ++ u " ") ++ u "drop foreign key " ++ (a :: n) ++ u ";"))); [reflexivity|]. rewrite R. reflexivity.
  - destruct n as [|a n]; [contradiction|]. transitivity (Ok (Some ((u "alter table " ++ t ++ u " ") ++ u "add index" ++ u " " ++ (a :: n) ++ u "(" ++ c ++ u ");"))); [reflexivity|]. rewrite R. reflexivity.
  - destruct n as [|a n]; [contradiction|]. transitivity (Ok (Some ((u "alter table " ++ t ++ u " ") ++ u "add fulltext" ++ u " " ++ (a :: n) ++ u "(" ++ c ++ u ");"))); [reflexivity|]. rewrite R. reflexivity.
  - destruct n as [|a n]; [contradiction|]. transitivity (Ok (Some ((u "alter table " ++ t ++ u " ") ++ u "add unique" ++ u " " ++ (a :: n) ++ u "(" ++ c ++ u ");"))); [reflexivity|]. rewrite R. reflexivity.
  - destruct n as [|a n]; [contradiction|]. transitivity (Ok (Some ((u "alter table " ++ t ++ u " ") ++ u "drop index " ++ (a :: n) ++ u ";"))); [reflexivity|]. rewrite R. reflexivity.
Qed.
Lemma format_unnamed t x : (match x with AddPrimary _ | DropPrimary | AddForeign _ _ _ _ => False | _ => hd [] (change_names x) = [] end) ->
  format_alter_key (change_dict t x) = Ok None.
Proof. intros H. destruct x; cbn [change_names hd] in H; try contradiction; subst n; reflexivity. Qed.
Lemma written_text t x : names_ok alnum t x -> written alnum (toks t x) (alter_text t x).
Proof.
  intros H. assert (B : forall l s, written alnum l s -> written alnum l s) by auto.
  assert (SP : name_char alnum 32 = false) by (apply blank_word; reflexivity).
  assert (P40 : name_char alnum 40 = false) by (apply punct_word; tauto). assert (P41 : name_char alnum 41 = false) by (apply punct_word; tauto).
  assert (P59 : name_char alnum 59 = false) by (apply punct_word; tauto).
  assert (KW : forall b k x l s, forallb is_blank b = true -> map lower x = u k -> (match s with c :: _ => name_char alnum c = false | [] => True end) -> written alnum l s -> written alnum (K k :: l) (b ++ x ++ s)).
  { intros b k y l s Hb Hy Hs HW. apply written_tok; try assumption. destruct s; [exact Logic.I|]. intros _. exact Hs. }
  assert (WD : forall b w l s, forallb is_blank b = true -> (match s with c :: _ => name_char alnum c = false | [] => True end) -> written alnum l s -> written alnum (W w :: l) (b ++ w ++ s)).
  { intros b w l s Hb Hs HW. apply written_tok; [exact Hb|reflexivity| |exact HW]. destruct s; [exact Logic.I|]. intros _. exact Hs. }
  assert (PN : forall c l s, c = 40 \/ c = 41 -> written alnum l s -> written alnum (P c :: l) (c :: s)).
  { intros c l s Hc HW. apply (written_tok alnum (P c) l [] [c] s); [reflexivity|reflexivity| |exact HW]. destruct s; [exact Logic.I|]. cbn [apart last]. intros E. destruct Hc as [->| ->]; [rewrite P40 in E|rewrite P41 in E]; discriminate E. }
  assert (EN : written alnum [] [59]) by (apply (written_end alnum [] [59]); auto).
  assert (COL : forall w l s, written alnum l s -> written alnum (P 40 :: W w :: P 41 :: l) (40 :: w ++ 41 :: s)).
  { intros w l s HW. apply PN; [tauto|]. apply (WD []); [reflexivity|exact P41|]. apply PN; [tauto|exact HW]. }
  unfold alter_text, toks. apply (KW [] "alter"%string (u "alter") _ (u " table " ++ t ++ _)); [reflexivity|reflexivity|exact SP|].
  apply (KW [32] "table"%string (u "table") _ (u " " ++ t ++ _)); [reflexivity|reflexivity|exact SP|].
  assert (TB : forall l s, (match s with c :: _ => name_char alnum c = false | [] => True end) -> written alnum l s -> written alnum (Table t :: l) (u " " ++ t ++ s)).
  { intros l s Hs HW. apply (written_tok alnum (Table t) l (u " ")); [reflexivity|left; reflexivity| |exact HW]. destruct s; [exact Logic.I|]. intros _. exact Hs. }
  apply TB; [destruct x; exact SP|]. clear TB. destruct x as [c| |n c rt rc|n|n c|n c|n c|n]; cbn [change_toks in_parens].
  - apply (KW [32] "add"%string (u "add") _ (u " primary key(" ++ c ++ u ");")); [reflexivity|reflexivity|exact SP|].
    apply (KW [32] "primary"%string (u "primary") _ (u " key(" ++ c ++ u ");")); [reflexivity|reflexivity|exact SP|].
    apply (KW [32] "key"%string (u "key") _ (u "(" ++ c ++ u ");")); [reflexivity|reflexivity|exact P40|]. apply (COL c [] [59] EN).
  - apply (KW [32] "drop"%string (u "drop") _ (u " primary key;")); [reflexivity|reflexivity|exact SP|].
    apply (KW [32] "primary"%string (u "primary") _ (u " key;")); [reflexivity|reflexivity|exact SP|].
    apply (KW [32] "key"%string (u "key") _ (u ";")); [reflexivity|reflexivity|exact P59|]. exact EN.
  - apply (KW [32] "add"%string (u "add") _ (u " constraint " ++ n ++ u " foreign key(" ++ c ++ u ") REFERENCES " ++ rt ++ u "(" ++ rc ++ u ");")); [reflexivity|reflexivity|exact SP|].
    apply (KW [32] "constraint"%string (u "constraint") _ (u " " ++ n ++ u " foreign key(" ++ c ++ u ") REFERENCES " ++ rt ++ u "(" ++ rc ++ u ");")); [reflexivity|reflexivity|exact SP|].
    apply (WD [32] n); [reflexivity|exact SP|].
    apply (KW [32] "foreign"%string (u "foreign") _ (u " key(" ++ c ++ u ") REFERENCES " ++ rt ++ u "(" ++ rc ++ u ");")); [reflexivity|reflexivity|exact SP|].
    apply (KW [32] "key"%string (u "key") _ (u "(" ++ c ++ u ") REFERENCES " ++ rt ++ u "(" ++ rc ++ u ");")); [reflexivity|reflexivity|exact P40|].
    apply (COL c _ (u " REFERENCES " ++ rt ++ u "(" ++ rc ++ u ");")).
    apply (KW [32] "references"%string (u "REFERENCES") _ (u " " ++ rt ++ u "(" ++ rc ++ u ");")); [reflexivity|reflexivity|exact SP|].
    apply (WD [32] rt); [reflexivity|exact P40|]. apply (COL rc [] [59] EN).
  - apply (KW [32] "drop"%string (u "drop") _ (u " foreign key " ++ n ++ u ";")); [reflexivity|reflexivity|exact SP|].
    apply (KW [32] "foreign"%string (u "foreign") _ (u " key " ++ n ++ u ";")); [reflexivity|reflexivity|exact SP|].
    apply (KW [32] "key"%string (u "key") _ (u " " ++ n ++ u ";")); [reflexivity|reflexivity|exact SP|].
    apply (WD [32] n); [reflexivity|exact P59|exact EN].
  - apply (KW [32] "add"%string (u "add") _ (u " index " ++ n ++ u "(" ++ c ++ u ");")); [reflexivity|reflexivity|exact SP|].
    apply (KW [32] "index"%string (u "index") _ (u " " ++ n ++ u "(" ++ c ++ u ");")); [reflexivity|reflexivity|exact SP|].
    apply (WD [32] n); [reflexivity|exact P40|]. apply (COL c [] [59] EN).
  - apply (KW [32] "add"%string (u "add") _ (u " fulltext " ++ n ++ u "(" ++ c ++ u ");")); [reflexivity|reflexivity|exact SP|].
    apply (KW [32] "fulltext"%string (u "fulltext") _ (u " " ++ n ++ u "(" ++ c ++ u ");")); [reflexivity|reflexivity|exact SP|].
    apply (WD [32] n); [reflexivity|exact P40|]. apply (COL c [] [59] EN).
  - apply (KW [32] "add"%string (u "add") _ (u " unique " ++ n ++ u "(" ++ c ++ u ");")); [reflexivity|reflexivity|exact SP|].
    apply (KW [32] "unique"%string (u "unique") _ (u " " ++ n ++ u "(" ++ c ++ u ");")); [reflexivity|reflexivity|exact SP|].
    apply (WD [32] n); [reflexivity|exact P40|]. apply (COL c [] [59] EN).
  - apply (KW [32] "drop"%string (u "drop") _ (u " index " ++ n ++ u ";")); [reflexivity|reflexivity|exact SP|].
    apply (KW [32] "index"%string (u "index") _ (u " " ++ n ++ u ";")); [reflexivity|reflexivity|exact SP|].
    apply (WD [32] n); [reflexivity|exact P59|exact EN].
Qed.

(** ** Words that touch *)
Lemma star_longer {A} (f : N -> bool) (k : option N -> pystr -> option A) w y r : forall x prev, (forall pv, star f k pv y = Some (w, r)) -> forallb f x = true -> star f k prev (x ++ y) = Some (x ++ w, r).
Proof.
  induction x as [|c x IH]; intros prev H F; [apply H|]. cbn [forallb] in F. apply andb_true_iff in F. destruct F as [F1 F2].
  cbn [app star]. rewrite F1. now rewrite (IH (Some c) H F2).
Qed.
Local Ltac walk := first [left; reflexivity | apply in_or_app; right; walk | right; walk].
Lemma touching x : x <> [] -> word x -> parse_alter_key alnum (u "alter table " ++ x ++ u "drop primary key") = change_dict x DropPrimary.
Proof.
  intros NE WX. unfold parse_alter_key.
  assert (N1 : rx add_primary None (u "alter table " ++ x ++ u "drop primary key") = None).
  { apply rx_none; [apply pat_small|]. intros F. assert (T : ~ In 40 (u "alter table " ++ x ++ u "drop primary key")).
    { rewrite !in_app_iff. intros [I|[I|I]]; [cbn in I; intuition discriminate| |cbn in I; intuition discriminate]. rewrite forallb_forall in WX. apply WX in I. rewrite punct_word in I by tauto. discriminate I. }
    apply T. clear T. generalize dependent (u "alter table " ++ x ++ u "drop primary key"). intros s F. unfold add_primary, alter_table, column in F. cbn [fits] in F.
    repeat match goal with
      | H : exists _, _ |- _ => destruct H
      | H : _ /\ _ |- _ => destruct H
      | H : _ \/ _ |- _ => destruct H
      end; subst; walk. }
  rewrite N1. cbn [matched].
  assert (N2 : rx drop_primary None (u "alter table " ++ x ++ u "drop primary key") = Some [x]).
  { unfold drop_primary, alter_table. set (q := [Blanks; Kw "drop"; Blanks; Kw "primary"; Blanks; Kw "key"; Blanks; Stop]).
    assert (ST : forall pv, star wordc (rx q) pv (u "drop primary key") = Some ([], [])).
    { intros pv. assert (L : forall c, small c = true -> wordc c = true) by (intros c H; apply (lower_small c); unfold small, lower in *; destruct ((65 <=? c) && (c <=? 90)) eqn:E; lia).
      subst q. cbn -[AlterModel.wordc]. rewrite !L by reflexivity. rewrite (blank_word 32) by reflexivity. reflexivity. }
    assert (BD : boundary alnum (Some 32) (x ++ u "drop primary key") = true).
    { unfold boundary. rewrite (blank_word 32) by reflexivity. destruct x as [|c x']; [contradiction|]. cbn [app forallb] in *. apply andb_true_iff in WX. now rewrite (proj1 WX). }
    assert (ND : exists c r, x ++ u "drop primary key" = c :: r /\ blank c = false /\ c <> 96).
    { destruct x as [|c x']; [contradiction|]. exists c, (x' ++ u "drop primary key"). split; [reflexivity|]. cbn [forallb] in WX. apply andb_true_iff in WX. destruct WX as [WX _].
      split; [destruct (blank c) eqn:E; [apply blank_word in E; congruence|reflexivity]|]. intros ->. rewrite punct_word in WX by tauto. discriminate WX. }
    assert (NM : rx (Name :: q) (Some 32) (x ++ u "drop primary key") = Some [x]).
    { cbn [AlterModel.rx]. rewrite BD, (star_longer wordc (rx q) [] _ [] x (Some 32) ST WX), app_nil_r. destruct ND as (c & r & E & _ & D). rewrite E. destruct (N.eqb_spec c 96); [contradiction|]. reflexivity. }
    clear ST BD N1. destruct ND as (c & r & E & B & D). set (y := x ++ u "drop primary key") in *. clearbody y.
    assert (B1 : forall pv, rx (Blanks :: Name :: q) pv (32 :: y) = Some [x]).
    { intros pv. change (match star blank (rx (Name :: q)) pv (32 :: y) with Some (_, z) => Some z | None => None end = Some [x]).
      assert (E2 : star blank (rx (Name :: q)) (Some 32) y = Some ([], [x])). { subst y. generalize dependent (rx (Name :: q)). intros f NM. cbn [star]. rewrite B. now rewrite NM. }
      generalize dependent (rx (Name :: q)). intros f _ E2. cbn [star]. change (blank 32) with true. cbv iota. now rewrite E2. }
    clear NM. generalize dependent (Blanks :: Name :: q). intros q3 B1. clear - B1. cbn. now rewrite B1. }
  rewrite N2. reflexivity.
Qed.
End Main.

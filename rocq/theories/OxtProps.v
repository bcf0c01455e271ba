(** * Encrypted keyword search: C53, C54, C76, C77

    Documents are numbered texts; [has_word docs ind w] (OxtSpec.v) says that the
    text of document [ind] has, between separators, a word whose number is [w].
    The hash function [md5] and the keys are arbitrary. *)
From Coq Require Import String Ascii List NArith ZArith Bool Lia.
From Coq Require Import Init.Byte.
From Verif Require Import Base CryptoModel CryptoSpec CryptoProps OxtModel OxtSpec OxtProof.
Import ListNotations.
Open Scope Z_scope.

(** ** C53 *)

(** Every collection whose keywords have invertible blinding factors can be
    indexed, and a search then returns every document that has all the keywords. *)
Lemma c53_aux : forall md5 P K texts inds fwd first rest, prim_ok P -> keys_encodable K -> NoDup inds ->
  build_forward_index texts inds = Ok fwd ->
  let docs := combine inds texts in
  (forall ind w, has_word docs ind w -> invertible md5 K w) ->
  (exists ind, has_word docs ind first) -> no_stag_collision md5 K docs first ->
  exists edb ids, setup_edb md5 P (build_inverted_index fwd) K = Ok edb /\
    search_encrypted md5 P K first rest edb = Ok ids /\
    (forall ind, (forall w, In w (first :: rest) -> has_word docs ind w) -> In ind ids).
Proof.
  intros md5 P K texts inds fwd first rest PO KE N Hf docs V E U.
  destruct (setup_docs_ok md5 P K PO KE texts inds fwd N Hf V) as (edb & Hs).
  destruct (search_docs md5 P K PO texts inds fwd edb first rest N Hf Hs E U) as (ids & S & B).
  exists edb, ids. split; [exact Hs |]. split; [exact S |]. intros ind A. apply B. split; [apply A; left; reflexivity |].
  intros w I. assert (Kx : forallb scalar (k_x K) = true /\ forallb scalar (k_i K) = true).
  { unfold keys_encodable in KE. rewrite !Forall_cons_iff in KE. tauto. }
  destruct (prf_total md5 _ w (proj1 Kx)) as (a & Ea). destruct (prf_total md5 _ ind (proj2 Kx)) as (b & Eb).
  exists (a * (b mod mod_p) mod mod_p), w, ind.
  assert (T : tag md5 K w ind (a * (b mod mod_p) mod mod_p)) by (exists a, b; auto).
  split; [exact T |]. split; [apply A; right; exact I | exact T].
Qed.
Theorem C53_search_complete : forall md5 P K texts inds fwd first rest, prim_ok P -> keys_encodable K -> NoDup inds ->
  build_forward_index texts inds = Ok fwd ->
  let docs := combine inds texts in
  (forall ind w, has_word docs ind w -> invertible md5 K w) ->
  (exists ind, has_word docs ind first) -> no_stag_collision md5 K docs first ->
  exists edb ids, setup_edb md5 P (build_inverted_index fwd) K = Ok edb /\
    search_encrypted md5 P K first rest edb = Ok ids /\
    (forall ind, (forall w, In w (first :: rest) -> has_word docs ind w) -> In ind ids).
Proof. exact c53_aux. Qed.
Print Assumptions C53_search_complete.

(** The index is never built when the blinding factor of a keyword in use has no
    inverse. *)
Lemma c53b_aux : forall md5 P K texts inds fwd edb ind w, NoDup inds ->
  build_forward_index texts inds = Ok fwd -> setup_edb md5 P (build_inverted_index fwd) K = Ok edb ->
  has_word (combine inds texts) ind w -> no_stag_collision md5 K (combine inds texts) w -> invertible md5 K w.
Proof.
  intros md5 P K texts inds fwd [T X] ind w N Hf Hs Hw U.
  destruct (forward_spec _ _ _ Hf N) as (Nf & F). destruct (inverted_spec fwd Nf) as (Ni & Full & I).
  apply setup_loop_spec in Hs as (_ & _ & Kt & G).
  pose proof Hw as G0. apply F in G0. apply I in G0. unfold get in G0.
  destruct (zget (build_inverted_index fwd) w) as [l |] eqn:El; [| destruct G0].
  pose proof El as Iw. apply zget_In in Iw; [| exact Ni].
  destruct (Kt w) as (s & Es); [apply in_map_iff; exists (w, l); auto |].
  destruct (G Ni w l s Iw Es) as (ks & t & _ & _ & F2).
  - intros w' I' E'. destruct (zget (build_inverted_index fwd) w') as [l' |] eqn:E1; [| apply zget_None in E1; easy].
    pose proof (Full _ _ E1) as Nl. destruct l' as [| j l']; [easy |]. apply (U j w'); [| congruence].
    apply F, I. unfold get. rewrite E1. left. reflexivity.
  - destruct l as [| i l]; [destruct G0 |]. inversion F2 as [| ? ey ? t0 E0 _]; subst.
    destruct E0 as (xi & zi & iz & xw & _ & Ez & _ & Eiz & _). apply (invertible_ok md5 K w zi Ez). eauto.
Qed.
Theorem C53_invertible_needed : forall md5 P K texts inds fwd edb ind w, NoDup inds ->
  build_forward_index texts inds = Ok fwd -> setup_edb md5 P (build_inverted_index fwd) K = Ok edb ->
  has_word (combine inds texts) ind w -> no_stag_collision md5 K (combine inds texts) w -> invertible md5 K w.
Proof. exact c53b_aux. Qed.
Print Assumptions C53_invertible_needed.

(** The plaintext search answers a keyword that occurs nowhere with the empty
    list; the encrypted search raises KeyError. *)
Lemma c53c_aux : forall md5 P K texts inds fwd edb first rest, NoDup inds ->
  keys_encodable K -> build_forward_index texts inds = Ok fwd -> setup_edb md5 P (build_inverted_index fwd) K = Ok edb ->
  (forall ind, ~ has_word (combine inds texts) ind first) -> no_stag_collision md5 K (combine inds texts) first ->
  search_encrypted md5 P K first rest edb = Err KeyError /\ search_keyword first rest fwd (build_inverted_index fwd) = [].
Proof.
  intros md5 P K texts inds fwd edb first rest N KE Hf Hs A U. split; [eapply search_absent; eassumption |].
  destruct (search_keyword first rest fwd (build_inverted_index fwd)) as [| i l] eqn:E; [reflexivity |]. exfalso.
  apply (A i). apply (proj1 (search_keyword_spec texts inds fwd first rest Hf N i)); [rewrite E |]; left; reflexivity.
Qed.
Theorem C53_absent_keyword : forall md5 P K texts inds fwd edb first rest, NoDup inds ->
  keys_encodable K -> build_forward_index texts inds = Ok fwd -> setup_edb md5 P (build_inverted_index fwd) K = Ok edb ->
  (forall ind, ~ has_word (combine inds texts) ind first) -> no_stag_collision md5 K (combine inds texts) first ->
  search_encrypted md5 P K first rest edb = Err KeyError /\ search_keyword first rest fwd (build_inverted_index fwd) = [].
Proof. exact c53c_aux. Qed.
Print Assumptions C53_absent_keyword.

(** The collection and query at the end of oxt.py, with a toy hash. *)
Definition ox_md5 (b : list byte) : N := fold_left (fun a x => (a * 65599 + bN x) mod 2305843009213693951)%N b 7%N.
Definition ox_keys : keys := Keys (u "a") (u "b") (u "c") (u "d") (u "e").
Definition ox_texts : list pystr := [u "some people like coke"; u "some guys like sprite"; u "some dudes like fanta";
  u "others hate coke"; u "others hate sprite"].
Definition ox_word (w : pystr) : Z := match encode_word w with Ok v => v | Err _ => 0 end.
Definition ox_search (md5 : list byte -> N) (texts : list pystr) (inds : list Z) (words : list pystr) : res (list Z) :=
  do fwd <- build_forward_index texts inds;
  do edb <- setup_edb md5 prim_rot (build_inverted_index fwd) ox_keys;
  match map ox_word words with [] => Err IndexError | w :: r => search_encrypted md5 prim_rot ox_keys w r edb end.
Example C53_example :
  ox_search ox_md5 ox_texts (default_inds ox_texts) [u "coke"; u "some"; u "like"] = Ok [1] /\
  ox_search ox_md5 ox_texts (default_inds ox_texts) [u "others"] = Ok [4; 5] /\
  ox_search ox_md5 ox_texts (default_inds ox_texts) [u "pepsi"] = Err KeyError.
Proof. split; [| split]; vm_compute; reflexivity. Qed.

(** ** C54 *)

(** The encrypted search returns exactly the documents that have the first keyword
    and whose tag for each other keyword is stored. *)
Theorem C54_search_exact : forall md5 P K, prim_ok P -> forall texts inds fwd edb first rest, NoDup inds ->
  build_forward_index texts inds = Ok fwd -> setup_edb md5 P (build_inverted_index fwd) K = Ok edb ->
  let docs := combine inds texts in
  (exists ind, has_word docs ind first) -> no_stag_collision md5 K docs first ->
  exists ids, search_encrypted md5 P K first rest edb = Ok ids /\
    forall ind, In ind ids <-> has_word docs ind first /\
      forall w, In w rest -> exists v w' ind', tag md5 K w ind v /\ has_word docs ind' w' /\ tag md5 K w' ind' v.
Proof. exact search_docs. Qed.
Print Assumptions C54_search_exact.

(** A returned document has the first keyword, and each other keyword unless its
    tag equals the tag of a different keyword and document pair. *)
Lemma c54_aux : forall md5 P K, prim_ok P -> forall texts inds fwd edb first rest ids ind, NoDup inds ->
  build_forward_index texts inds = Ok fwd -> setup_edb md5 P (build_inverted_index fwd) K = Ok edb ->
  let docs := combine inds texts in
  (exists ind, has_word docs ind first) -> no_stag_collision md5 K docs first ->
  search_encrypted md5 P K first rest edb = Ok ids -> In ind ids ->
  has_word docs ind first /\
  forall w, In w rest -> has_word docs ind w \/
    exists v w' ind', (w', ind') <> (w, ind) /\ has_word docs ind' w' /\ tag md5 K w ind v /\ tag md5 K w' ind' v.
Proof.
  intros md5 P K PO texts inds fwd edb first rest ids ind N Hf Hs docs E U S I.
  destruct (search_docs md5 P K PO texts inds fwd edb first rest N Hf Hs E U) as (ids' & S' & B).
  rewrite S in S'. injection S' as <-. apply B in I as (H & R). split; [exact H |]. intros w Iw.
  destruct (R w Iw) as (v & w' & ind' & T1 & H' & T2).
  destruct (Z.eq_dec w' w) as [-> | Nw]; [destruct (Z.eq_dec ind' ind) as [-> | Ni] |].
  - left. exact H'.
  - right. exists v, w, ind'. repeat split; auto. congruence.
  - right. exists v, w', ind'. repeat split; auto. congruence.
Qed.
Theorem C54_sound_up_to_collisions : forall md5 P K, prim_ok P -> forall texts inds fwd edb first rest ids ind, NoDup inds ->
  build_forward_index texts inds = Ok fwd -> setup_edb md5 P (build_inverted_index fwd) K = Ok edb ->
  let docs := combine inds texts in
  (exists ind, has_word docs ind first) -> no_stag_collision md5 K docs first ->
  search_encrypted md5 P K first rest edb = Ok ids -> In ind ids ->
  has_word docs ind first /\
  forall w, In w rest -> has_word docs ind w \/
    exists v w' ind', (w', ind') <> (w, ind) /\ has_word docs ind' w' /\ tag md5 K w ind v /\ tag md5 K w' ind' v.
Proof. exact c54_aux. Qed.
Print Assumptions C54_sound_up_to_collisions.

(** Without a tag collision the encrypted search and the plaintext search return
    the same documents. *)
Lemma c54b_aux : forall md5 P K, prim_ok P -> keys_encodable K -> forall texts inds fwd edb first rest, NoDup inds ->
  build_forward_index texts inds = Ok fwd -> setup_edb md5 P (build_inverted_index fwd) K = Ok edb ->
  let docs := combine inds texts in
  (exists ind, has_word docs ind first) -> no_stag_collision md5 K docs first ->
  (forall w ind w' ind' v, In w rest -> has_word docs ind first -> has_word docs ind' w' ->
     tag md5 K w ind v -> tag md5 K w' ind' v -> w' = w /\ ind' = ind) ->
  exists ids, search_encrypted md5 P K first rest edb = Ok ids /\
    forall ind, In ind ids <-> In ind (search_keyword first rest fwd (build_inverted_index fwd)).
Proof.
  intros md5 P K PO KE texts inds fwd edb first rest N Hf Hs docs E U C.
  destruct (search_docs md5 P K PO texts inds fwd edb first rest N Hf Hs E U) as (ids & S & B).
  exists ids. split; [exact S |]. intros ind. rewrite B, (search_keyword_spec texts inds fwd first rest Hf N ind). fold docs.
  assert (Kx : forallb scalar (k_x K) = true /\ forallb scalar (k_i K) = true).
  { unfold keys_encodable in KE. rewrite !Forall_cons_iff in KE. tauto. }
  split.
  - intros (H & R) w [<- | I]; [exact H |]. destruct (R w I) as (v & w' & ind' & T1 & H' & T2).
    destruct (C w ind w' ind' v I H H' T1 T2) as (-> & ->). exact H'.
  - intros A. split; [apply A; left; reflexivity |]. intros w I.
    destruct (prf_total md5 _ w (proj1 Kx)) as (a & Ea). destruct (prf_total md5 _ ind (proj2 Kx)) as (b & Eb).
    assert (T : tag md5 K w ind (a * (b mod mod_p) mod mod_p)) by (exists a, b; auto).
    exists (a * (b mod mod_p) mod mod_p), w, ind. split; [exact T |]. split; [apply A; right; exact I | exact T].
Qed.
Theorem C54_agrees_with_plain_search : forall md5 P K, prim_ok P -> keys_encodable K -> forall texts inds fwd edb first rest, NoDup inds ->
  build_forward_index texts inds = Ok fwd -> setup_edb md5 P (build_inverted_index fwd) K = Ok edb ->
  let docs := combine inds texts in
  (exists ind, has_word docs ind first) -> no_stag_collision md5 K docs first ->
  (forall w ind w' ind' v, In w rest -> has_word docs ind first -> has_word docs ind' w' ->
     tag md5 K w ind v -> tag md5 K w' ind' v -> w' = w /\ ind' = ind) ->
  exists ids, search_encrypted md5 P K first rest edb = Ok ids /\
    forall ind, In ind ids <-> In ind (search_keyword first rest fwd (build_inverted_index fwd)).
Proof. exact c54b_aux. Qed.
Print Assumptions C54_agrees_with_plain_search.

(** Unconditional soundness is false for every hash function and every choice of
    keys: there are only [mod_p] tags, so two document numbers share theirs, and a
    document with the first keyword alone is returned for both. *)
Theorem C54_false_hits_refuted : forall md5 P K a b, prim_ok P -> keys_encodable K ->
  encode_word (u "a") = Ok a -> encode_word (u "b") = Ok b ->
  invertible md5 K a -> invertible md5 K b -> prf md5 (k_t K) (str_int a) <> prf md5 (k_t K) (str_int b) ->
  exists i j fwd edb ids, 0 < i < j /\
    build_forward_index [u "a b"; u "a"] [i; j] = Ok fwd /\
    setup_edb md5 P (build_inverted_index fwd) K = Ok edb /\
    search_encrypted md5 P K a [b] edb = Ok ids /\ In j ids /\
    ~ has_word (combine [i; j] [u "a b"; u "a"]) j b.
Proof. exact false_hits. Qed.
Print Assumptions C54_false_hits_refuted.

(** The hypotheses hold for [ox_md5]; with a hash that looks at the last byte only
    the false hit is at hand. *)
Example C54_example :
  (invertible ox_md5 ox_keys (ox_word (u "a")) /\ invertible ox_md5 ox_keys (ox_word (u "b")) /\
   prf ox_md5 (k_t ox_keys) (str_int (ox_word (u "a"))) <> prf ox_md5 (k_t ox_keys) (str_int (ox_word (u "b")))) /\
  ox_search ox_md5 [u "a b"; u "a"] [12; 22] [u "a"; u "b"] = Ok [12] /\
  ox_search (fun b => bN (last b x00)) [u "a b"; u "a"] [12; 22] [u "a"; u "b"] = Ok [12; 22].
Proof.
  split; [split; [| split] | split].
  - eexists. split; vm_compute; reflexivity.
  - eexists. split; vm_compute; reflexivity.
  - intros H. vm_compute in H. discriminate.
  - vm_compute. reflexivity.
  - vm_compute. reflexivity.
Qed.

(** ** C76 *)

(** A collection is indexed exactly when no text is empty, starts with a
    separator or has a code point without UTF-8 encoding. *)
Theorem C76_indexable_collections : forall texts inds,
  (exists fwd, build_forward_index texts inds = Ok fwd) <->
  Forall (fun d => snd d <> [] /\ ~ separator (hd 0%N (snd d)) /\ forallb scalar (snd d) = true) (combine inds texts).
Proof. exact (fun texts inds => forward_loop_ok (combine inds texts) []). Qed.
Print Assumptions C76_indexable_collections.

Theorem C76_error_kind : forall texts inds e,
  Forall (fun d => forallb scalar (snd d) = true) (combine inds texts) ->
  build_forward_index texts inds = Err e -> e = ValueError.
Proof. exact (fun texts inds e => forward_loop_err (combine inds texts) [] e). Qed.
Print Assumptions C76_error_kind.

(** What is indexed: with distinct document numbers, each document under exactly
    the words its text has. *)
Lemma c76_aux : forall texts inds fwd, build_forward_index texts inds = Ok fwd -> NoDup inds ->
  forall ind first, In ind (search_keyword first [] fwd (build_inverted_index fwd)) <-> has_word (combine inds texts) ind first.
Proof.
  intros texts inds fwd Hf N ind first. rewrite (search_keyword_spec texts inds fwd first [] Hf N ind). split.
  - intros A. apply A. left. reflexivity.
  - intros H w [<- | []]. exact H.
Qed.
Theorem C76_index_contents : forall texts inds fwd, build_forward_index texts inds = Ok fwd -> NoDup inds ->
  forall ind first, In ind (search_keyword first [] fwd (build_inverted_index fwd)) <-> has_word (combine inds texts) ind first.
Proof. exact c76_aux. Qed.
Print Assumptions C76_index_contents.

Example C76_example :
  build_forward_index [u "one, two"; u " three"] (default_inds [u "one, two"; u " three"]) = Err ValueError /\
  (exists fwd, build_forward_index [u "one, two. "; u "three"] (default_inds [u "one"; u "three"]) = Ok fwd /\
     search_keyword (ox_word (u "two")) [ox_word (u "one")] fwd (build_inverted_index fwd) = [1]).
Proof. split; [vm_compute; reflexivity |]. eexists. split; vm_compute; reflexivity. Qed.

(** ** C77 *)

(** Two words get the same number exactly when they differ in NUL characters at
    the front only. *)
Lemma c77_aux : forall x y v w, encode_word x = Ok v -> encode_word y = Ok w -> (v = w <-> drop_nuls x = drop_nuls y).
Proof.
  intros x y v w Hx Hy. split.
  - intros <-. eapply encode_word_inj; eassumption.
  - intros E. destruct (proj1 (encode_word_ok x)) as (Nx & Sx); [eauto |]. destruct (proj1 (encode_word_ok y)) as (Ny & Sy); [eauto |].
    pose proof (encode_word_same x y Nx Ny Sx Sy E). congruence.
Qed.
Theorem C77_keyword_numbers : forall x y v w, encode_word x = Ok v -> encode_word y = Ok w -> (v = w <-> drop_nuls x = drop_nuls y).
Proof. exact c77_aux. Qed.
Print Assumptions C77_keyword_numbers.

Theorem C77_encodable_keywords : forall x, (exists v, encode_word x = Ok v) <-> (x <> [] /\ forallb scalar x = true).
Proof. exact encode_word_ok. Qed.
Print Assumptions C77_encodable_keywords.

(** So a search for one word can return a document that does not have it. *)
Theorem C77_nul_words_refuted : exists t x fwd,
  build_forward_index [t] [1] = Ok fwd /\ ~ word_in x t /\
  search_keyword (ox_word x) [] fwd (build_inverted_index fwd) = [1].
Proof.
  exists (0%N :: u "key"), (u "key"). eexists. split; [vm_compute; reflexivity |]. split; [| vm_compute; reflexivity].
  intros H. apply text_words_spec in H; [| discriminate]. vm_compute in H. destruct H as [H | []]. discriminate.
Qed.
Print Assumptions C77_nul_words_refuted.

Example C77_example : encode_word (u "ab") = Ok 24930 /\ encode_word (0%N :: u "ab") = Ok 24930 /\ encode_word (u "ab" ++ [0%N]) = Ok 6382080.
Proof. repeat split; vm_compute; reflexivity. Qed.

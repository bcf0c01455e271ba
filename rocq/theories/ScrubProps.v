(** C68: the normalisation of parse results. *)
From Coq Require Import String Ascii List NArith ZArith Bool.
From Verif Require Import Base ScrubModel ScrubSpec ScrubProof.
Import ListNotations.

(** Normalising a second time changes nothing. *)
Theorem C68_idempotent : forall x, scrub (back (scrub x)) = scrub x.
Proof. exact idempotent. Qed.
Print Assumptions C68_idempotent.

(** The result holds no list of fewer than two elements and no null under a key, at any depth. *)
Theorem C68_clean : forall x, clean (scrub x).
Proof. exact scrub_clean. Qed.
Print Assumptions C68_clean.

(** A list of two elements or more stays a list of as many elements. *)
Theorem C68_list_kept : forall l, (2 <= length l)%nat -> scrub (PList l) = OList (map scrub l).
Proof. exact list_kept. Qed.
Print Assumptions C68_list_kept.

(** What becomes nothing, exactly.  The claim that a non-empty list never does is refuted: a list of
    one element that becomes nothing. *)
Theorem C68_nothing : forall x, scrub x = ONone <-> void x.
Proof. exact scrub_void. Qed.
Print Assumptions C68_nothing.
Theorem C68_nonempty_list_refuted : forall l, l <> [] -> (scrub (PList l) = ONone <-> exists x, l = [x] /\ void x).
Proof.
  intros l Hl. rewrite list_none. split.
  - intros [H|(x & H & E)]; [contradiction|]. exists x. split; [exact H|apply scrub_void; exact E].
  - intros (x & H & E). right. exists x. split; [exact H|apply scrub_void; exact E].
Qed.
Print Assumptions C68_nonempty_list_refuted.

(** Which values are confused: those that differ in singleton lists, in empty lists against None, and
    in keys without a value. *)
Theorem C68_confused : forall x y, plain x -> plain y -> (scrub x = scrub y <-> conf x y).
Proof. exact same_iff_conf. Qed.
Print Assumptions C68_confused.

(** An operator becomes a dict whose key is the operator, a call without arguments gets {}. *)
Theorem C68_call : forall op args kw, exists d, scrub (PCall op args kw) = ODict d /\
  (~ void args -> dget d op = Some (scrub args)) /\ (void args -> dget d op = Some (ODict [])) /\
  forall k, k <> op -> dget d k = dget (drop_null (map (fun kv => (fst kv, scrub (snd kv))) kw)) k.
Proof.
  intros op args kw. destruct (call_shape op args kw) as (d & E & H1 & H2 & H3).
  exists d. split; [exact E|]. split; [intros H; apply H1; rewrite scrub_void; exact H|].
  split; [intros H; apply H2; rewrite scrub_void; exact H|exact H3].
Qed.
Print Assumptions C68_call.

(** A parse result: its named parts as a dict, or, when no name has a value, the list of its elements. *)
Theorem C68_parse_result : forall n g a l, truthy (PRes n g a l) = true ->
  let fields := drop_null (map (fun kv => (fst kv, scrub (PList (snd kv)))) (entries (PRes n g a l))) in
  (fields <> [] -> scrub (PRes n g a l) = ODict fields) /\
  (fields = [] -> scrub (PRes n g a l) = scrub (PList (elements (PRes n g a l)))).
Proof.
  intros n g a l T fields. rewrite scrub_res, T. fold fields. split; intros H.
  - destruct fields; [contradiction|reflexivity].
  - rewrite H. reflexivity.
Qed.
Print Assumptions C68_parse_result.

(** [f(1)] and [f([1])], an INSERT of one row and of two, a WHERE part without a value, a name that
    occurs twice. *)
Definition ex_pn (z : Z) := PNum z.
Definition ex_word (n s : string) : pv := PRes (u n) false false [PText (u s)].
Example C68_example :
  scrub (PCall (u "f") (PList [ex_pn 1]) []) = ODict [(u "f", ONum 1)] /\
  scrub (PCall (u "f") (PList [PList [ex_pn 1]]) []) = ODict [(u "f", ONum 1)] /\
  scrub (PCall (u "f") (PList [PNull; ex_pn 1]) [(u "k", PNone); (u "w", PNum 2)]) =
    ODict [(u "w", ONum 2); (u "f", OList [ONull; ONum 1])] /\
  scrub (PCall (u "now") (PList []) []) = ODict [(u "now", ODict [])] /\
  scrub (PList [PList []]) = ONone /\ scrub (PList [PList []; PNone]) = OList [ONone; ONone] /\
  scrub (PRes [] false false [ex_word "select" "a"; ex_word "from" "t"]) =
    ODict [(u "select", OText (u "a")); (u "from", OText (u "t"))] /\
  scrub (PRes [] false false [ex_word "x" "a"; PRes [] false false [ex_word "x" "b"]; PText (u "lost")]) =
    ODict [(u "x", OList [OText (u "a"); OText (u "b")])] /\
  scrub (PRes [] true false [PText (u "a"); PRes [] true false [PText (u "b"); PText (u "c")]]) =
    OList [OText (u "a"); OList [OText (u "b"); OText (u "c")]].
Proof. vm_compute. tauto. Qed.
Example C68_confused_example :
  plain (PDict [(u "a", PList [PList [ex_pn 1]]); (u "b", PList [])]) /\
  conf (PDict [(u "a", PList [PList [ex_pn 1]]); (u "b", PList [])]) (PDict [(u "a", ex_pn 1)]) /\
  ~ conf (PList [ex_pn 1; ex_pn 2]) (PList [PList [ex_pn 1]; PNone]).
Proof.
  split; [|split].
  - constructor. intros k v [E|[E|[]]]; injection E as _ <-; repeat (constructor; try (intros ? [<-|[]]); try (intros ? [])).
  - apply (proj1 (same_iff_conf (PDict [(u "a", PList [PList [ex_pn 1]]); (u "b", PList [])]) (PDict [(u "a", ex_pn 1)])
      ltac:(constructor; intros k v [E|[E|[]]]; injection E as _ <-; repeat (constructor; try (intros ? [<-|[]]); try (intros ? [])))
      ltac:(constructor; intros k v [E|[]]; injection E as _ <-; constructor))).
    reflexivity.
  - intros H. apply conf_scrub in H. discriminate H.
Qed.

(** * Dotted names: C59 *)
From Coq Require Import String Ascii List NArith ZArith Bool.
From Verif Require Import Base JsonModel DotsModel DotsSpec DotsProof.
Import ListNotations.

(** ** C59 *)

(** Splitting undoes joining exactly on the good paths. *)
Theorem C59_split_of_join : forall p, (exists f, join_field p = Ok f /\ split_field f = p) <-> good_path p.
Proof. exact split_join_iff. Qed.
Print Assumptions C59_split_of_join.

(** Joining undoes splitting exactly on the non-empty texts without the BEL character. *)
Theorem C59_join_of_split : forall f, join_field (split_field f) = Ok f <-> f <> [] /\ free BEL f.
Proof. exact join_split_iff. Qed.
Print Assumptions C59_join_of_split.

(** In particular two different good paths have different texts. *)
Lemma c59_aux : forall p q f, good_path p -> good_path q -> join_field p = Ok f -> join_field q = Ok f -> p = q.
Proof.
  intros p q f Gp Gq Hp Hq. apply split_join_iff in Gp as (f1 & J1 & <-). apply split_join_iff in Gq as (f2 & J2 & <-). congruence.
Qed.
Theorem C59_join_injective : forall p q f, good_path p -> good_path q -> join_field p = Ok f -> join_field q = Ok f -> p = q.
Proof. exact c59_aux. Qed.
Print Assumptions C59_join_injective.

(** The empty name and a name with a BEL character do not survive. *)
Theorem C59_roundtrip_refuted : (exists p f, join_field p = Ok f /\ split_field f <> p) /\
  (exists f, join_field (split_field f) <> Ok f).
Proof.
  split; [exists [Name [BEL]], (u "\."); split; [reflexivity | discriminate] | exists []; discriminate].
Qed.
Print Assumptions C59_roundtrip_refuted.

Example C59_example :
  join_field [Name (u "db.main"); Name (u "t\"); Name (u "a")] = Ok (u "db\.main.t" ++ [BS] ++ u "a") /\
  split_field (u "db\.main.t" ++ [BS] ++ u "a") = [Name (u "db.main"); Name (u "t\"); Name (u "a")] /\
  split_field (u "...a.b") = [Up; Up; Name (u "a"); Name (u "b")] /\
  good_path [Up; Up; Name (u "a"); Name (u "b")] /\ ~ good_path [Name []; Name []; Name (u "a")].
Proof.
  split; [reflexivity |]. split; [reflexivity |]. split; [reflexivity |]. split.
  - apply split_join_iff. eexists. split; reflexivity.
  - intros G. apply split_join_iff in G as (f & J & E). injection J as <-. discriminate.
Qed.

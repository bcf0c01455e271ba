(** Induction on the size of a parsed value, and small facts. *)
From Coq Require Import String Ascii List NArith ZArith QArith Bool Lia Wf_nat.
From Verif Require Import Base BaseProof JsonModel.
Import ListNotations.

Fixpoint jsize (j : json) : nat :=
  match j with
  | JList l => S ((fix go (l : list json) : nat := match l with [] => O | x :: r => (jsize x + go r)%nat end) l)
  | JDict d => S ((fix go (d : list (pystr * json)) : nat :=
                     match d with [] => O | (_, x) :: r => (jsize x + go r)%nat end) d)
  | _ => 1%nat
  end.

Lemma jsize_list x l : In x l -> (jsize x < jsize (JList l))%nat.
Proof.
  cbn [jsize]. induction l as [|y l IH]; intros H; [destruct H|].
  destruct H as [->|H]; [lia|]. specialize (IH H). lia.
Qed.

Lemma jsize_dict k x d : In (k, x) d -> (jsize x < jsize (JDict d))%nat.
Proof.
  cbn [jsize]. induction d as [|[k' y] d IH]; intros H; [destruct H|].
  destruct H as [[= -> ->]|H]; [lia|]. specialize (IH H). lia.
Qed.

Lemma json_size_ind (P : json -> Prop) :
  (forall j, (forall j', (jsize j' < jsize j)%nat -> P j') -> P j) -> forall j, P j.
Proof.
  intros H j. remember (jsize j) as n eqn:E. revert j E.
  induction n as [n IH] using lt_wf_ind. intros j ->. apply H.
  intros j' L. apply (IH (jsize j')); [exact L | reflexivity].
Qed.

Lemma mapM_ext_in {A B} (f g : A -> res B) l :
  (forall x, In x l -> f x = g x) -> mapM f l = mapM g l.
Proof.
  induction l as [|x l IH]; intros H; [reflexivity|]. cbn [mapM].
  rewrite (H x) by (left; reflexivity). rewrite IH; [reflexivity|].
  intros y Hy. apply H. right. exact Hy.
Qed.

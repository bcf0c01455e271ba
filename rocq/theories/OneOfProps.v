(** C108: a choice of texts takes the longest that fits, in whatever order they are given. *)
From Coq Require Import String Ascii List Arith NArith Bool Lia.
From Verif Require Import Base RangeModel RangeSpec OneOfModel OneOfSpec OneOfProof.
Import ListNotations.

(** The pattern can be read, and at the beginning of any text it takes the longest of the symbols that begin it.  [6]: see C107. *)
Theorem C108_longest : forall symbols, symbols <> [] -> ~ In [] symbols -> (In [6%N] symbols -> exists c, In [c] symbols /\ (6 < c)%N) ->
  exists p alts, one_of symbols = Some p /\ read_alts [] p = Some alts /\ forall t, longest eq symbols t (run alts t).
Proof. exact plain_longest. Qed.
Print Assumptions C108_longest.

(** With caseless, letters of ASCII in either case; the loop that orders the symbols ends. *)
Theorem C108_caseless : forall symbols t, exists found, one_of_caseless symbols t = Some found /\ longest same_letter symbols t found.
Proof. exact caseless_longest. Qed.
Print Assumptions C108_caseless.

(** The empty symbol comes before the single characters: where it is given, they are never taken. *)
Theorem C108_empty_refuted : forall symbols, In [] symbols -> (In [6%N] symbols -> exists c, In [c] symbols /\ (6 < c)%N) ->
  exists p alts, one_of symbols = Some p /\ read_alts [] p = Some alts /\
    forall t, (forall s, In s symbols -> begins_with eq s t -> length s < 2) -> run alts t = Some 0.
Proof. exact plain_empty. Qed.
Print Assumptions C108_empty_refuted.

(** ** Examples *)
Example C108_example :
  one_of (map u ["<"; "<="; "!="; "<"; "<=>"; "||"; "="]%string) = Some (u "<=>|<=|!=|\|\||[<-=]") /\
  option_map (fun a => map (run a) (map u ["<=>1"; "<=1"; "<1"; "||x"; "|x"]%string)) (read_alts [] (u "<=>|<=|!=|\|\||[<-=]")) =
    Some [Some 3; Some 2; Some 1; Some 2; None].
Proof. vm_compute. split; reflexivity. Qed.
Example C108_caseless_example :
  ordered true (map u ["in"; "INT"; "or"; "In"; "integer"; "ORDER"]%string) = Some (map u ["integer"; "INT"; "in"; "ORDER"; "or"]%string) /\
  one_of_caseless (map u ["in"; "INT"; "or"; "In"; "integer"; "ORDER"]%string) (u "iNtEgral") = Some (Some 3).
Proof. vm_compute. split; reflexivity. Qed.
Example C108_empty_example :
  one_of [[]; u "a"] = Some (u "|a") /\ option_map (fun a => run a (u "a")) (read_alts [] (u "|a")) = Some (Some 0) /\ ~ longest eq [[]; u "a"] (u "a") (Some 0).
Proof.
  split; [vm_compute; reflexivity|]. split; [vm_compute; reflexivity|]. intros (_ & H).
  assert (X : length (u "a") <= 0) by (apply H; [right; left; reflexivity | exists (u "a"), []; split; [reflexivity | repeat constructor]]). vm_compute in X. inversion X.
Qed.

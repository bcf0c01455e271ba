(** C107: a class of characters is written so that Python's re reads exactly these characters. *)
From Coq Require Import String Ascii List Arith NArith Bool Lia.
From Verif Require Import Base EngineSqlModel RangeModel RangeSpec RangeProof.
Import ListNotations.
Local Open Scope N_scope.

(** Of one character, and of several unless the greatest is character 6. *)
Theorem C107_class : forall s exclude, s <> [] -> (length s = 1%nat \/ (In 6 s -> exists c, In c s /\ 6 < c)) ->
  exists f, one_char (regex_range s exclude) = Some f /\ forall c, f c = true <-> if exclude then ~ In c s else In c s.
Proof.
  intros s exclude Ne H.
  assert (X : exists f, one_char (regex_range s exclude) = Some f /\ forall c, f c = xorb exclude (existsb (N.eqb c) s)).
  { destruct s as [|c [|d s]]; [destruct (Ne eq_refl) | | destruct H as [H|H]; [discriminate H | exact (set_class (c :: d :: s) exclude Ne H)]].
    cbn [regex_range]. destruct exclude.
    - assert (E : flat_map piece [(c, c)] = esc c) by (cbn [flat_map]; unfold piece; cbn [fst snd]; rewrite N.eqb_refl; apply app_nil_r).
      destruct (class_read [(c, c)] true) as (f & R & F); [discriminate | constructor; [cbn; lia | constructor]|]. rewrite E in R. exists f. split; [exact R|].
      intros x. rewrite F. f_equal. unfold inside. cbn [existsb fst snd]. rewrite !orb_false_r. apply bool_iff. rewrite andb_true_iff, !N.leb_le, N.eqb_eq. lia.
    - destruct (esc_head c) as (a & t & E & _ & _ & _ & N91 & M). pose proof (read_esc c []) as R. rewrite app_nil_r, E in R. rewrite E.
      unfold one_char. rewrite (proj2 (N.eqb_neq a 91) N91), M, R. eexists. split; [reflexivity|]. intros x. cbn [existsb xorb]. rewrite orb_false_r, N.eqb_sym.
      destruct (x =? c); reflexivity. }
  destruct X as (f & E & F). exists f. split; [exact E|]. intros c. rewrite F. pose proof (in_existsb s c) as I. destruct exclude, (existsb (N.eqb c) s); cbn; intuition discriminate.
Qed.
Print Assumptions C107_class.

(** ** Examples *)
Example C107_example :
  regex_range (u "0123456789-abc^") false = u "[\-0-9\^a-c]" /\ regex_range (u "]") true = u "[^\]]" /\ regex_range [9; 10; 13; 32] false = u "[\t-\n\r ]" /\
  option_map (fun f => map f (u "5-^d]")) (one_char (u "[\-0-9\^a-c]")) = Some [true; true; true; false; false].
Proof. vm_compute. repeat split. Qed.
Example C107_names_example : (In 6 first_chars -> exists c, In c first_chars /\ 6 < c) /\ regex_range (u "@_$ABC") false = u "[\$@-C_]".
Proof. split; [intros _; exists 64; vm_compute; tauto | vm_compute; reflexivity]. Qed.

(** If character 6 is the greatest, it is lost, with the range that it ends. *)
Theorem C107_last_refuted : exists s f, length s = 5%nat /\ In 6 s /\ one_char (regex_range s false) = Some f /\ f 6 = false /\ f 5 = false /\ f 1 = true.
Proof. exists [1; 3; 4; 5; 6], (inside [(1, 1)]). split; [reflexivity|]. split; [cbn; tauto|]. vm_compute. repeat split. Qed.
Print Assumptions C107_last_refuted.
(** No characters are excluded: the pattern is empty and takes no character. *)
Example C107_none_example : one_char (regex_range [] true) = None /\ regex_range [] true = regex_range [] false.
Proof. split; reflexivity. Qed.

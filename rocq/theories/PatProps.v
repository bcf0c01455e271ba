(** C106: the regular expressions that elements are turned into are read by Python's re as the elements are meant. *)
From Coq Require Import String Ascii List Arith NArith Bool Lia.
From Verif Require Import Base EngineModel EngineSqlModel WhiteModel WhiteSpec RegexModel RegexProof PatModel PatSpec PatProof.
Import ListNotations.

Lemma same_match a b x : same a b -> re_match a x = re_match b x.
Proof. intros H. unfold re_match. rewrite H. reflexivity. Qed.

(** The parentheses that are written are enough: the pattern compiles, and the same matches are tried in the same order. *)
Theorem C106_compiled : forall e, fine e -> exists r, compile (snd (regex e)) = Some r /\ forall x, ends r x = ends (meaning e) x.
Proof. exact compile_ok. Qed.
Print Assumptions C106_compiled.

(** simple_ident, sql_parser.py L33-37: the pattern that is built is the one of names in C104, so it takes what the grammar takes as a name. *)
Definition simple_ident : el :=
  AndE [Atom (Cls first_char); ManyE 0 None (FirstE [Pat (AndE [Atom (Behind joint); Atom (is 45); Atom (Ahead joint)]); Atom (Cls ident_char)])].
Theorem C106_names : exists r, compile (snd (regex simple_ident)) = Some r /\ forall before l, re_match r (before, l) = m_ident l.
Proof.
  destruct (compile_ok simple_ident) as (r & C & E); [cbn; intuition discriminate|]. exists r. split; [exact C|]. intros b l. rewrite <- (ident_ok b). apply same_match.
  eapply same_trans; [exact E|]. unfold simple_ident, ident_re. cbn [meaning map seql altl]. apply same_seq; [apply same_refl|].
  eapply same_trans; [apply seq_eps|]. eapply same_trans; [apply eps_seq|]. apply same_star. apply same_alt; [|apply same_refl].
  apply same_seq; [apply same_refl|]. apply same_seq; [apply same_refl | apply seq_eps].
Qed.
Print Assumptions C106_names.

(** Comments as sql_parser.py L74-76 adds them, with restOfLine of helpers.py L790: the pattern of white space and comments finds the gap of C103. *)
Definition comment (g : ignored) : el :=
  match g with
  | Line p => AndE [Lit p; Pat (ManyE 0 None (Atom (Cls (fun c => negb (N.eqb c 10)))))]
  | Block p q => AndE [Lit p; SkipE true (Lit q)]
  end.
Lemma comment_same g : same (meaning (comment g)) (ignored_re g).
Proof.
  destruct g as [p|p q]; cbn [comment meaning map seql ignored_re]; (apply same_seq; [apply same_refl|]); (eapply same_trans; [apply seq_eps|]).
  - apply eps_seq.
  - apply same_refl.
Qed.
Lemma comments_same gs : same (altl (map meaning (map comment gs))) (any_re gs).
Proof.
  induction gs as [|g gs IH]; [apply same_refl|]. destruct gs as [|g' gs]; [apply comment_same|].
  change (any_re (g :: g' :: gs)) with (Alt (ignored_re g) (any_re (g' :: gs))).
  change (altl (map meaning (map comment (g :: g' :: gs)))) with (Alt (meaning (comment g)) (altl (map meaning (map comment (g' :: gs))))).
  apply same_alt; [apply comment_same | exact IH].
Qed.
Theorem C106_white : forall ws gs, (forall g, In g gs -> exists c p, opening g = c :: p /\ ~ In c ws) ->
  exists r, compile (snd (white_regex ws (map comment gs))) = Some r /\ forall before l, re_match r (before, l) = Some (regex_match ws gs l).
Proof.
  intros ws gs H. destruct (white_compile ws (map comment gs)) as (r & C & E).
  - apply Forall_map, Forall_forall. intros g _. destruct g; cbn; auto.
  - exists r. split; [exact C|]. intros b l. rewrite <- (white_ok ws gs H b). apply same_match. eapply same_trans; [exact E|]. unfold white_re.
    destruct gs as [|g gs]; [apply same_refl|]. cbv zeta. change (map comment (g :: gs)) with (comment g :: map comment gs) at 1. cbv iota.
    apply same_seq; [|apply same_refl]. apply same_star, same_seq; [apply same_refl | apply (comments_same (g :: gs))].
Qed.
Print Assumptions C106_white.

(** ** Examples *)
Definition pairs : el := ManyE 2 (Some 3) (FirstE [Lit (u "ab"); AndE [FirstE [Lit (u "a"); Lit (u "c")]; ManyE 0 (Some 1) (Lit (u "de"))]]).
Example C106_example : fine pairs /\ fst (regex pairs) = PStar /\ length (snd (regex pairs)) = 16 /\ fine simple_ident /\
  option_map (fun r => re_match r (None, u "abcdeab!")) (compile (snd (regex pairs))) = Some (Some 7) /\ re_match (meaning pairs) (None, u "abcdeab!") = Some 7.
Proof. split; [cbn; intuition (discriminate || lia)|]. split; [reflexivity|]. split; [reflexivity|]. split; [cbn; intuition discriminate|]. split; vm_compute; reflexivity. Qed.
Example C106_white_example :
  option_map (fun r => re_match r (None, u " /* a */ # x")) (compile (snd (white_regex [9; 10; 13; 32]%N (map comment [Line (u "--"); Line (u "#"); Block (u "/*") (u "*/")]))))
  = Some (Some 12).
Proof. vm_compute. reflexivity. Qed.

(** A repetition of a repetition is written without parentheses and does not compile. *)
Theorem C106_repeated_refuted : forall r n, compile (snd (regex (ManyE 0 None (ManyE n None (Atom r))))) = None.
Proof. intros r n. reflexivity. Qed.
Print Assumptions C106_repeated_refuted.
(** An empty choice matches nothing, its pattern always matches. *)
Theorem C106_choice_refuted : exists r, compile (snd (regex (FirstE []))) = Some r /\
  forall x, re_match r x = Some 0 /\ re_match (meaning (FirstE [])) x = None.
Proof.
  eexists. split; [reflexivity|]. intros (b & l). split; [unfold re_match; cbn; rewrite Nat.sub_diag; reflexivity | destruct l; reflexivity].
Qed.
Print Assumptions C106_choice_refuted.

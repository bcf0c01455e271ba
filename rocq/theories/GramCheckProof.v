(** A check whether a text consists of given parts, for the examples. *)
From Coq Require Import String Ascii List Arith NArith ZArith Bool Lia ZifyBool ZifyNat ZifyN.
From Verif Require Import Base BaseProof LitModel LitSpec GramModel GramSpec GramNumProof.
Import ListNotations.

Fixpoint prefixb (a b : pystr) : bool :=
  match a, b with [], _ => true | x :: a', y :: b' => N.eqb x y && prefixb a' b' | _, [] => false end.
Lemma prefixb_ok a : forall b, prefixb a b = true <-> is_prefix a b.
Proof.
  induction a as [|x a IH]; intros b; [split; [intros _; now exists b|reflexivity]|]. destruct b as [|y b]; cbn [prefixb].
  - split; [discriminate|]. intros [c E]. discriminate E.
  - rewrite andb_true_iff, N.eqb_eq, IH. split.
    + intros [-> [c ->]]. now exists c.
    + intros [c E]. injection E as -> ->. split; [reflexivity|now exists c].
Qed.
Definition memb (c : N) (l : list N) : bool := existsb (N.eqb c) l.
Lemma memb_In c l : memb c l = true <-> In c l.
Proof. unfold memb. rewrite existsb_exists. split; [intros (x & H & E); apply N.eqb_eq in E; now subst x|intros H; exists c; now rewrite N.eqb_refl]. Qed.
Lemma memb_out c l : memb c l = false -> ~ In c l.
Proof. intros H X. apply memb_In in X. congruence. Qed.
Definition nextb (p : N -> bool) (s : pystr) : bool := match s with c :: _ => p c | [] => true end.
Lemma nextb_ok p s : nextb p s = true -> forall c r, s = c :: r -> p c = true.
Proof. intros H c r ->. exact H. Qed.
Definition plainb (v : pystr) : bool :=
  match v with [] => false | c :: _ => forallb keyword_char v && negb (is_digit c) && negb (smem (map low_char v) language) end.
Lemma plainb_ok v : plainb v = true -> plain_name v.
Proof.
  destruct v as [|c v]; [discriminate|]. unfold plainb, plain_name. rewrite !andb_true_iff, !negb_true_iff. intros [[A B] C]. repeat split; [discriminate|exact A|exact B|].
  intros X. apply smem_In in X. congruence.
Qed.
(** A string without backslashes. *)
Definition pieces (s : pystr) : list piece := map (fun c => if N.eqb c 39 then Two else Chr c) s.
Lemma pieces_val s : LitSpec.val (pieces s) = s.
Proof.
  unfold pieces, LitSpec.val in *. induction s as [|c s IH]; [reflexivity|]. cbn [map flat_map]. rewrite IH. now destruct (N.eqb_spec c 39) as [->|E].
Qed.
Definition writesb (x : lexeme) (t next : pystr) : bool :=
  match x with
  | LKw w => smem w language && seqb (map low_char t) w && nextb (fun c => negb (keyword_char c)) next
  | LName v =>
    (plainb v && seqb t v && nextb (fun c => negb (ident_char c) && negb (memb c [45; 46; 93; 96]%N)) next) ||
    (match v with [] => false | _ => true end && forallb clean_char v && negb (memb 46 v) && seqb t (96 :: doubled 96 v ++ [96])%N && nextb (fun c => negb (memb c [46; 96]%N)) next)
  | LFun v => plainb v && seqb t v && nextb (fun c => negb (ident_char c) && negb (memb c [45; 46; 93; 96]%N)) next
  | LNum z => match t with [] => false | _ => true end && forallb is_digit t && (z =? digits_value t)%Z && nextb (fun c => negb (ident_char c) && negb (memb c [46; 91; 96]%N)) next
  | LStr v =>
    (forallb clean_char v && seqb t (39 :: src (pieces v) ++ [39])%N && nextb (fun c => negb (N.eqb c 39)) next) ||
    (forallb clean_char v && negb (memb 39 v) && negb (memb 34 v) && seqb t (34 :: v ++ [34])%N && nextb (fun c => negb (N.eqb c 34)) next)
  | LSym s => smem s symbols && seqb t s && forallb (fun l => implb (prefixb l (s ++ next)) (prefixb l s)) all_symbols
  end.
Ltac conj_bool := repeat match goal with
  | H : (_ && _)%bool = true |- _ => apply andb_true_iff in H; destruct H
  | H : negb _ = true |- _ => apply negb_true_iff in H
  | H : seqb _ _ = true |- _ => apply seqb_eq in H
  end.
Lemma writesb_ok x t next : writesb x t next = true -> writes x t next.
Proof.
  destruct x as [w|v|v|z|v|s]; cbn [writesb]; intros H.
  - conj_bool. constructor; [now apply smem_In|assumption|]. intros c r E. apply negb_true_iff. now apply (nextb_ok _ next H0 c r).
  - apply orb_true_iff in H. destruct H as [H|H]; conj_bool; subst t.
    + constructor; [now apply plainb_ok|]. intros c r E. apply (nextb_ok _ next) with (c := c) (r := r) in H0; [|exact E]. conj_bool. split; [assumption|now apply memb_out].
    + apply w_quoted.
      * split; [now destruct v|]. split; [assumption|]. now apply memb_out.
      * intros c r E. apply (nextb_ok _ next) with (c := c) (r := r) in H0; [|exact E]. conj_bool. now apply memb_out.
  - conj_bool. subst t. constructor; [now apply plainb_ok|]. intros c r E. apply (nextb_ok _ next) with (c := c) (r := r) in H0; [|exact E]. conj_bool. split; [assumption|now apply memb_out].
  - conj_bool. constructor.
    + apply numeral_iff. split; [now destruct t|]. split; [assumption|]. now apply Z.eqb_eq.
    + intros c r E. apply (nextb_ok _ next) with (c := c) (r := r) in H0; [|exact E]. conj_bool. split; [assumption|now apply memb_out].
  - apply orb_true_iff in H. destruct H as [H|H]; conj_bool; subst t.
    + rewrite <- (pieces_val v) at 1. apply w_str.
      * clear H0. unfold pieces. induction v as [|c v IH]; [constructor|]. cbn [map forallb] in *. conj_bool. constructor; [|now apply IH].
        destruct (N.eqb_spec c 39) as [E|E]; [exact I|]. now split.
      * intros c r E. apply (nextb_ok _ next) with (c := c) (r := r) in H0; [|exact E]. conj_bool. now apply N.eqb_neq.
    + apply w_double; [assumption|now apply memb_out|now apply memb_out|].
      intros c r E. apply (nextb_ok _ next) with (c := c) (r := r) in H0; [|exact E]. conj_bool. now apply N.eqb_neq.
  - conj_bool. subst t. constructor; [now apply smem_In|]. intros l L P0. rewrite forallb_forall in H0. specialize (H0 l L). apply prefixb_ok in P0. rewrite P0 in H0. now apply prefixb_ok.
Qed.
Definition blanksb (w : pystr) : bool := forallb (fun c => memb c [32; 9; 10; 13]%N) w.
Lemma blanksb_ok w : blanksb w = true -> blanks w.
Proof. unfold blanksb, blanks. rewrite forallb_forall, Forall_forall. intros H c X. apply memb_In, H, X. Qed.
(** Blanks, and perhaps a comment. *)
Fixpoint trailb (w : pystr) : bool :=
  match w with
  | [] => true
  | c :: r =>
    if memb c [32; 9; 10; 13]%N then trailb r
    else (N.eqb c 35 && negb (memb 10 r)) || (N.eqb c 45 && match r with d :: r' => N.eqb d 45 && negb (memb 10 r') | [] => false end)
  end.
Lemma trailb_ok w : trailb w = true -> trail w.
Proof.
  induction w as [|c r IH]; cbn [trailb]; [intros _; exists [], []; split; [reflexivity|split; [constructor|now left]]|].
  destruct (memb c [32; 9; 10; 13]%N) eqn:M.
  - intros H. destruct (IH H) as (b & d & -> & B & D). exists (c :: b), d. split; [reflexivity|]. split; [|exact D]. constructor; [now apply memb_In|exact B].
  - clear IH. intros H. exists [], (c :: r). split; [reflexivity|]. split; [constructor|]. right. apply orb_true_iff in H. destruct H as [H|H]; conj_bool; apply N.eqb_eq in H; subst c.
    + exists (u "#"), r. split; [reflexivity|]. split; [now right|]. now apply memb_out.
    + destruct r as [|d r]; [discriminate H0|]. conj_bool. apply N.eqb_eq in H. subst d. exists (u "--"), r. split; [reflexivity|]. split; [now left|]. now apply memb_out.
Qed.
(** The parts with their texts and what stands behind each. *)
Fixpoint spelledb (s : pystr) (l : list (lexeme * pystr * pystr)) : bool :=
  match l with
  | [] => match s with [] => true | _ => false end
  | [(x, t, w)] => seqb s (t ++ w) && writesb x t w && trailb w
  | (x, t, w) :: r =>
    let rest := skipn (length (t ++ w)) s in
    seqb s ((t ++ w) ++ rest) && writesb x t (w ++ rest) && blanksb w && spelledb rest r
  end.
Lemma spelledb_ok l : forall s, spelledb s l = true -> spelled s (map (fun p => fst (fst p)) l).
Proof.
  induction l as [|[[x t] w] l IH]; intros s H; [destruct s; [constructor|discriminate H]|].
  destruct l as [|p l].
  - cbn [spelledb] in H. conj_bool. subst s. constructor; [now apply writesb_ok|now apply trailb_ok].
  - change (spelledb s ((x, t, w) :: p :: l)) with (let rest := skipn (length (t ++ w)) s in
      seqb s ((t ++ w) ++ rest) && writesb x t (w ++ rest) && blanksb w && spelledb rest (p :: l))%bool in H.
    cbv zeta in H. conj_bool. rewrite <- app_assoc in H. rewrite H. cbn [map fst]. constructor; [now apply writesb_ok|now apply blanksb_ok|discriminate|]. now apply (IH (skipn (length (t ++ w)) s)).
Qed.
Definition spellsb (lead s semis spaces : pystr) (l : list (lexeme * pystr * pystr)) : bool :=
  blanksb lead && spelledb s l && forallb (N.eqb 59) semis && forallb py_space spaces.
Lemma spellsb_ok text lead s semis spaces l ls : text = lead ++ s ++ semis ++ spaces -> ls = map (fun p => fst (fst p)) l -> spellsb lead s semis spaces l = true -> spells ls text.
Proof.
  intros -> -> H. unfold spellsb in H. conj_bool. exists lead, s, semis, spaces. split; [reflexivity|]. split; [now apply blanksb_ok|]. split; [now apply spelledb_ok|].
  split; [|assumption]. apply Forall_forall. intros c X. rewrite forallb_forall in H1. symmetry. now apply N.eqb_eq, H1.
Qed.
(** The same with the parts and their texts apart. *)
Definition zip (ls : list lexeme) (tw : list (pystr * pystr)) : list (lexeme * pystr * pystr) := map (fun p => (fst p, fst (snd p), snd (snd p))) (combine ls tw).
Lemma spells_by ls text lead s semis spaces tw : text = lead ++ s ++ semis ++ spaces -> length ls = length tw -> spellsb lead s semis spaces (zip ls tw) = true -> spells ls text.
Proof.
  intros E L H. apply (spellsb_ok text lead s semis spaces (zip ls tw)); [exact E| |exact H]. clear E H. revert tw L. unfold zip.
  induction ls as [|x ls IH]; intros [|y tw] L; try discriminate L; [reflexivity|]. cbn [combine map fst snd]. f_equal. apply IH. now injection L.
Qed.

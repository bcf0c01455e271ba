(** * Lemmas: reading back the expressions the SQL writer emits *)
From Coq Require Import String Ascii List NArith ZArith QArith Bool Lia ZifyBool ZifyNat ZifyN.
From Verif Require Import Base BaseProof JsonModel JsonProof CreateModel DotsModel DotsSpec DotsProof SqlLex SqlRead FmtModel FmtSpec FmtLexProof FmtExprProof.
Import ListNotations.
Open Scope Z_scope.

(** Trees that stand for parsed values. *)
Definition call_name (f : pystr) : Prop :=
  match f with c :: r => word_start c = true /\ forallb word_char r = true | [] => False end /\ kw_of f = None.
Fixpoint wf (t : tree) : Prop :=
  match t with
  | ECol l => l <> []
  | EInt z => 0 <= z
  | ENeg t => match t with EInt z => 0 <= z | _ => False end
  | EBnot t | ENot t | EIs _ t => wf t
  | EBin _ a b => wf a /\ wf b
  | EIn _ m l => wf m /\ fold_right (fun t P => wf t /\ P) True l
  | EBetween _ a b c => wf a /\ wf b /\ wf c
  | ECall f l => call_name f /\ fold_right (fun t P => wf t /\ P) True l
  | _ => True
  end.

Lemma fold_and (P : tree -> Prop) l : fold_right (fun t Q => P t /\ Q) True l <-> Forall P l.
Proof.
  induction l as [|a l IH]; cbn; [split; constructor|]. rewrite IH. split; [intros [? ?]; now constructor|intros H; inversion H; now split].
Qed.

Lemma int_wf z : wf (int_of z).
Proof. unfold int_of. destruct (Z.ltb_spec z 0); cbn; lia. Qed.
Lemma lit_wf j t : lit_of j = Some t -> wf t.
Proof. destruct j; cbn [lit_of]; intros [= <-]; [apply int_wf|exact I]. Qed.
Lemma col_wf s t : col_of s = Some t -> wf t.
Proof.
  unfold col_of. destruct (seqb s (u "*")); [intros [= <-]; exact I|].
  destruct (names_of (split_field s)) as [[|x l]|]; intros [= <-]. discriminate.
Qed.

Lemma low_upper c : low (upper_char c) = low c.
Proof.
  unfold low, upper_char. destruct ((97 <=? c)%N && (c <=? 122)%N) eqn:E; [|reflexivity].
  destruct ((65 <=? c - 32)%N && (c - 32 <=? 90)%N) eqn:F; destruct ((65 <=? c)%N && (c <=? 90)%N) eqn:G; lia.
Qed.
Lemma kw_upper f : kw_of (upper f) = kw_of f.
Proof.
  unfold kw_of, upper. rewrite map_map. now rewrite (map_ext (fun x => low (upper_char x)) low low_upper f).
Qed.
Lemma upper_word c : letter c = true -> word_start (upper_char c) = true.
Proof. unfold letter, upper_char, word_start, letter. destruct ((97 <=? c)%N && (c <=? 122)%N) eqn:E; lia. Qed.
Lemma upper_char_word c : fun_char c = true -> word_char (upper_char c) = true.
Proof. unfold fun_char, letter, digit, upper_char, word_char, word_start, letter, digit. destruct ((97 <=? c)%N && (c <=? 122)%N) eqn:E; lia. Qed.
Lemma call_name_ok k : fun_name k = true -> call_name (upper k).
Proof.
  unfold fun_name. intros H. apply andb_true_iff in H as [H K]. apply andb_true_iff in H as [H _].
  split.
  - destruct k as [|c r]; [discriminate|]. apply andb_true_iff in H as [H1 H2]. cbn [upper map]. split; [now apply upper_word|].
    rewrite forallb_forall in H2 |- *. intros x I. apply in_map_iff in I as (y & <- & I). apply upper_char_word. now apply H2.
  - rewrite kw_upper. now destruct (kw_of k).
Qed.

Lemma mapO_wf (f : json -> option tree) l ts : mapO f l = Some ts -> (forall x t, In x l -> f x = Some t -> wf t) -> Forall wf ts.
Proof.
  intros H G. apply mapO_F2 in H. induction H as [|x y l ts E H IH]; constructor.
  - apply (G x); [now left|exact E].
  - apply IH. intros x' t I. apply G. now right.
Qed.
Lemma fold_wf o : forall r a, wf a -> Forall wf r -> wf (fold_left (EBin o) r a).
Proof.
  induction r as [|b r IH]; intros a A R; [exact A|]. inversion R; subst. cbn [fold_left]. apply IH; [now split|assumption].
Qed.

Lemma tree_wf : forall n j t, (jdepth j < n)%nat -> tree_of j = Some t -> wf t.
Proof.
  induction n as [n IH] using lt_wf_ind. intros j t Hn Ht.
  destruct j as [| |z| |s|l|d]; try discriminate Ht.
  - injection Ht as <-. exact I.
  - injection Ht as <-. apply int_wf.
  - now apply col_wf in Ht.
  - destruct d as [|[k v] [|? ?]]; try discriminate Ht. rewrite depth_one in Hn. cbn [tree_of] in Ht.
    assert (IHv : forall x t, (jdepth x <= jdepth v)%nat -> tree_of x = Some t -> wf t).
    { intros x t' D. apply (IH (S (jdepth v))); lia. }
    assert (IHl : forall l ts, v = JList l -> mapO tree_of l = Some ts -> Forall wf ts).
    { intros l ts -> M. apply (mapO_wf tree_of l ts M). intros x t' I. apply IHv. pose proof (depth_in x l I). lia. }
    assert (IHs : forall t', tree_of v = Some t' -> wf t') by (intros t'; apply IHv; lia).
    destruct (find (fun p => seqb (fst p) k) binops) as [[k' o]|].
    + destruct v as [| | | | |l|[|[x w] [|? ?]]]; try discriminate Ht.
      * destruct (mapO tree_of l) as [[|a [|b r]]|] eqn:M; try discriminate Ht. injection Ht as <-.
        pose proof (IHl l _ eq_refl M) as F. inversion F; subst. now apply (fold_wf o (b :: r)).
      * destruct (col_of x) as [a|] eqn:C; [|discriminate]. destruct (lit_of w) as [b|] eqn:L; [|discriminate].
        injection Ht as <-. split; [now apply col_wf in C|now apply lit_wf in L].
    + destruct (keyed "null" k). { injection Ht as <-. exact I. }
      destruct (keyed "literal" k). { now apply lit_wf in Ht. }
      destruct (keyed "in" k || keyed "nin" k).
      { destruct v as [| | | | |[|m [|s [|? ?]]]|]; try discriminate Ht.
        destruct (tree_of m) as [a|] eqn:T; [|discriminate].
        destruct (match s with JList l => _ | _ => _ end) as [l|] eqn:L; [|discriminate]. injection Ht as <-.
        split; [apply (IHv m); [pose proof (depth_in m [m; s] (or_introl eq_refl)); lia|exact T]|].
        apply fold_and. pose proof (depth_in s [m; s] (or_intror (or_introl eq_refl))) as D.
        destruct s as [| | | | |ls|[|[k' w] [|? ?]]]; try discriminate L.
        - destruct (no_literal ls); [|discriminate]. apply (mapO_wf tree_of ls l L). intros x t' I. apply IHv.
          pose proof (depth_in x ls I). lia.
        - destruct (keyed "literal" k'); [|discriminate].
          assert (M : exists ls, mapO lit_of ls = Some l) by (destruct w; eexists; exact L).
          destruct M as [ls M]. apply (mapO_wf lit_of ls l M). intros x t' _. apply lit_wf. }
      destruct (keyed "between" k || keyed "not_between" k).
      { destruct v as [| | | | |l|]; try discriminate Ht.
        destruct (mapO tree_of l) as [[|a [|b [|d [|? ?]]]]|] eqn:M; try discriminate Ht. injection Ht as <-.
        pose proof (IHl l _ eq_refl M) as F. inversion F as [|? ? ? F1]; subst. inversion F1 as [|? ? ? F2]; subst. inversion F2; subst.
        now repeat split. }
      destruct (keyed "missing" k || keyed "exists" k).
      { destruct (tree_of v) as [a|] eqn:T; [|discriminate]. injection Ht as <-. first [exact (IHs a T)|exact (IHs a eq_refl)]. }
      destruct (keyed "binary_not" k).
      { destruct (tree_of v) as [a|] eqn:T; [|discriminate]. injection Ht as <-. first [exact (IHs a T)|exact (IHs a eq_refl)]. }
      destruct (keyed "not" k).
      { assert (E : exists a, tree_of v = Some a /\ t = ENot a).
        { destruct v as [| | | | |l|[|? ?]]; try discriminate Ht.
          all: destruct (tree_of _) as [a|] eqn:T in Ht; [|discriminate Ht]; injection Ht as <-; exists a; now split. }
        destruct E as (a & T & ->). exact (IHs a T). }
      destruct (fun_name k) eqn:FN; [|discriminate]. apply call_name_ok in FN.
      assert (ONE : match tree_of v with Some t => Some (ECall (upper k) [t]) | None => None end = Some t -> wf t).
      { destruct (tree_of v) as [a|] eqn:T; intros E; [injection E as <-|discriminate E]. split; [exact FN|]. apply fold_and.
        constructor; [first [exact (IHs a T)|exact (IHs a eq_refl)]|constructor]. }
      destruct v as [| | | | |l|[|kv d]]; try exact (ONE Ht).
      * injection Ht as <-. split; [exact FN|exact I].
      * destruct (mapO tree_of l) as [ts|] eqn:M; [|discriminate]. injection Ht as <-. split; [exact FN|]. apply fold_and.
        now apply (IHl l).
      * injection Ht as <-. split; [exact FN|exact I].
Qed.

(** ** Tokens of the emitted text *)
Section Tokens.
Variables bs dq : bool.
Variable alnum : N -> bool.
Variable ansi : bool.
Hypothesis HA : ascii_ok alnum.
Hypothesis HD : ansi = true -> dq = false.

Notation Lx := (Lx bs dq).
Notation Lw := (Lw bs dq).
Definition Lf (s : pystr) (ts : list token) : Prop := forall rest ts', Lx rest ts' -> Lx (s ++ rest) (ts ++ ts').

Lemma Lf_Lw s ts : Lf s ts -> Lw s ts.
Proof. intros H rest ts' _. apply H. Qed.
Lemma Lf_app s1 t1 s2 t2 : Lf s1 t1 -> Lf s2 t2 -> Lf (s1 ++ s2) (t1 ++ t2).
Proof. intros A B rest ts' H. rewrite <- !app_assoc. apply A, B, H. Qed.
Lemma Lf_Lw_app s1 t1 s2 t2 : Lf s1 t1 -> Lw s2 t2 -> Lw (s1 ++ s2) (t1 ++ t2).
Proof. intros A B rest ts' S H. rewrite <- !app_assoc. apply A, B, H. exact S. Qed.
Definition opens (s : pystr) : Prop := match s with c :: _ => sep [c] = true | [] => False end.
Lemma opens_app s rest : opens s -> sep (s ++ rest) = true.
Proof. destruct s as [|c s]; [easy|]. intros H. exact H. Qed.
Lemma Lw_app s1 t1 s2 t2 : Lw s1 t1 -> Lw s2 t2 -> opens s2 -> Lw (s1 ++ s2) (t1 ++ t2).
Proof.
  intros A B O rest ts' S H. rewrite <- !app_assoc. apply A; [now apply opens_app|]. now apply B.
Qed.
Lemma Lw_Lf_app s1 t1 s2 t2 : Lw s1 t1 -> Lf s2 t2 -> opens s2 -> Lf (s1 ++ s2) (t1 ++ t2).
Proof.
  intros A B O rest ts' H. rewrite <- !app_assoc. apply A; [now apply opens_app|]. now apply B.
Qed.

Ltac lf := intros rest ts' H; cbn [u app]; repeat (first [exact H | apply Lx_space; [reflexivity|] | eapply Lx_tok; [reflexivity|reflexivity|cbn; lia|]]).
Ltac lf1 := intros rest ts' H; cbn [u app]; apply Lx_tok with (r := rest); [reflexivity|destruct rest; reflexivity|cbn; lia|exact H].
Lemma Lf_lp : Lf (u "(") [TSym SqlRead.LP].
Proof. lf1. Qed.
Lemma Lf_rp : Lf (u ")") [TSym RP].
Proof. lf1. Qed.
Lemma Lf_comma : Lf (u ", ") [TSym COMMA].
Proof. lf. Qed.
Lemma Lf_period : Lf [DOT] [TSym PERIOD].
Proof. lf1. Qed.
Lemma Lf_star : Lf (u "*") [TSym (u "*")].
Proof. lf1. Qed.
Lemma Lf_tilde : Lf (u "~") [TSym (u "~")].
Proof. lf1. Qed.
Lemma Lf_op o : Lf (op_text o) (op_toks o).
Proof. destruct o; lf. Qed.
Lemma Lf_in n : Lf (in_text n) (not_toks n ++ [TWord (u "IN")]).
Proof. destruct n; lf. Qed.
Lemma Lf_between n : Lf (between_text n) (not_toks n ++ [TWord (u "BETWEEN")]).
Proof. destruct n; lf. Qed.
Lemma Lf_and : Lf (u " AND ") [TWord (u "AND")].
Proof. lf. Qed.
Lemma Lw_upper w : call_name w -> Lw w [TWord w].
Proof. destruct w as [|c r]; [intros [[] _]|]. intros [[A B] _]. now apply Lw_word. Qed.
Lemma Lw_is n : Lw (is_text n) (TWord (u "IS") :: not_toks n ++ [TWord (u "NULL")]).
Proof.
  assert (W : Lw (u "NULL") [TWord (u "NULL")]) by (apply Lw_word; reflexivity).
  destruct n; cbn [not_toks].
  - change (is_text true) with (u " IS NOT " ++ u "NULL").
    change (TWord (u "IS") :: [TWord (u "NOT")] ++ [TWord (u "NULL")]) with ([TWord (u "IS"); TWord (u "NOT")] ++ [TWord (u "NULL")]).
    apply Lf_Lw_app; [lf|exact W].
  - change (is_text false) with (u " IS " ++ u "NULL").
    change (TWord (u "IS") :: [] ++ [TWord (u "NULL")]) with ([TWord (u "IS")] ++ [TWord (u "NULL")]).
    apply Lf_Lw_app; [lf|exact W].
Qed.

Lemma Lf_wrap s ts : Lw s ts -> Lf (paren s) (wrap false ts).
Proof.
  intros H. unfold paren, wrap. change (TSym SqlRead.LP :: ts ++ [TSym RP]) with ([TSym SqlRead.LP] ++ ts ++ [TSym RP]).
  apply Lf_app; [apply Lf_lp|]. apply Lw_Lf_app; [exact H|apply Lf_rp|reflexivity].
Qed.
Lemma Lw_wrap b s ts : Lw s ts -> Lw (paren_if b s) (wrap b ts).
Proof. intros H. destruct b; [exact H|]. apply Lf_Lw, Lf_wrap, H. Qed.
Lemma Lw_nil : Lw [] [].
Proof. intros rest ts' _ H. exact H. Qed.
Lemma Lw_join (f : tree -> pystr) (g : tree -> list token) l : Forall (fun t => Lw (f t) (g t)) l ->
  Lw (join (u ", ") (map f l)) (jtoks (map g l)).
Proof.
  induction 1 as [|x l A F IH]; [apply Lw_nil|]. destruct l as [|y l]; [exact A|].
  change (join (u ", ") (map f (x :: y :: l))) with (f x ++ (u ", " ++ join (u ", ") (map f (y :: l)))).
  change (jtoks (map g (x :: y :: l))) with (g x ++ ([TSym COMMA] ++ jtoks (map g (y :: l)))).
  apply Lw_app; [exact A| |reflexivity]. apply Lf_Lw_app; [apply Lf_comma|exact IH].
Qed.
Lemma Lw_names l : Forall name_ok l -> Lw (join [DOT] (map (esc alnum ansi) l)) (dtoks (map (part_tok alnum) l)).
Proof.
  induction 1 as [|x l A F IH]; [apply Lw_nil|].
  assert (E : Lw (esc alnum ansi x) [part_tok alnum x]) by (apply Lw_esc; assumption).
  destruct l as [|y l]; [exact E|].
  change (join [DOT] (map (esc alnum ansi) (x :: y :: l))) with (esc alnum ansi x ++ ([DOT] ++ join [DOT] (map (esc alnum ansi) (y :: l)))).
  change (dtoks (map (part_tok alnum) (x :: y :: l))) with ([part_tok alnum x] ++ ([TSym PERIOD] ++ dtoks (map (part_tok alnum) (y :: l)))).
  apply Lw_app; [exact E| |reflexivity]. apply Lf_Lw_app; [apply Lf_period|exact IH].
Qed.

Lemma uint_digits d : forallb digit (uint_chars d) = true.
Proof. induction d; cbn [uint_chars forallb]; try (now rewrite IHd); reflexivity. Qed.
Lemma pos_str z : 0 <= z -> exists c w, str_int z = c :: w /\ digit c = true /\ forallb digit w = true.
Proof.
  intros H. assert (E : forallb digit (str_int z) = true).
  { unfold str_int. destruct z; [reflexivity| |lia]. apply uint_digits. }
  pose proof (str_int_nonempty z) as N. destruct (str_int z) as [|c w]; [easy|]. cbn [forallb] in E. apply andb_true_iff in E as [A B].
  exists c, w. now repeat split.
Qed.
Lemma Lw_int z : 0 <= z -> Lw (str_int z) [TNum (str_int z)].
Proof. intros H. destruct (pos_str z H) as (c & w & -> & A & B). now apply Lw_num. Qed.
Lemma Lw_neg z : 0 <= z -> Lw (u "-" ++ str_int z) (TSym (u "-") :: [TNum (str_int z)]).
Proof.
  intros H rest ts' S X. pose proof (Lw_int z H rest ts' S X) as Y.
  destruct (pos_str z H) as (c & w & E & A & B). rewrite E in Y |- *. cbn [u app] in Y |- *.
  apply Lx_tok with (r := c :: w ++ rest); [reflexivity| |cbn; lia|exact Y].
  unfold read_token. change (N_of_ascii "-" =? 39)%N with false. change (N_of_ascii "-" =? 34)%N with false.
  change (N_of_ascii "-" =? 96)%N with false. change (word_start (N_of_ascii "-")) with false. change (digit (N_of_ascii "-")) with false.
  cbv iota. unfold read_symbol, smem2, comment_starts, symbols2. cbn [map existsb u seqb].
  assert (N1 : (c =? 45)%N = false) by (unfold digit in A; lia).
  change (N_of_ascii "-") with 45%N. cbn - [N.eqb]. rewrite N1.
  change (45 =? 45)%N with true. change (45 =? 47)%N with false. change (45 =? 60)%N with false.
  change (45 =? 62)%N with false. change (45 =? 124)%N with false. change (45 =? 33)%N with false. change (45 =? 58)%N with false.
  change (45 =? 38)%N with false. cbn. reflexivity.
Qed.

Lemma Forall_both (P Q : tree -> Prop) (R : tree -> Prop) l : Forall (fun t => P t -> Q t -> R t) l -> Forall P l -> Forall Q l -> Forall R l.
Proof. intros A B C. rewrite Forall_forall in *. auto. Qed.

Lemma Lw_show : forall t, wf t -> good_leaves bs t -> forall c, Lw (show alnum ansi t c) (toks alnum t c).
Proof.
  induction t using tree_ind2; intros W G c; cbn [show toks]; apply Lw_wrap; cbn [wf good_leaves] in W, G.
  - now apply Lw_names.
  - apply Lf_Lw, Lf_star.
  - now apply Lw_str.
  - now apply Lw_int.
  - apply Lw_word; reflexivity.
  - destruct t; try contradiction. now apply Lw_neg.
  - apply (Lf_Lw_app (u "~") [TSym (u "~")]); [apply Lf_tilde|]. now apply IHt.
  - apply (Lw_app (u "NOT") [TWord (u "NOT")]); [apply Lw_word; reflexivity| |reflexivity]. apply Lf_Lw, Lf_wrap. now apply IHt.
  - destruct W, G. apply Lw_app; [now apply IHt1| |destruct o; reflexivity]. apply Lf_Lw_app; [apply Lf_op|now apply IHt2].
  - destruct W as [W1 W2], G as [G1 G2]. rewrite fold_and in W2, G2.
    apply Lw_app; [now apply IHt| |destruct n; reflexivity].
    change (TWord (u "IN") :: wrap false (jtoks (map (fun t => toks alnum t max_prec) l))) with ([TWord (u "IN")] ++ wrap false (jtoks (map (fun t => toks alnum t max_prec) l))).
    rewrite app_assoc. apply Lf_Lw_app; [apply Lf_in|]. apply Lf_Lw, Lf_wrap. apply Lw_join.
    refine (Forall_both wf (good_leaves bs) _ l _ W2 G2). rewrite Forall_forall in *. intros x Hx Wx Gx. now apply H.
  - destruct W as (W1 & W2 & W3), G as (G1 & G2 & G3).
    apply Lw_app; [now apply IHt1| |destruct n; reflexivity].
    change (TWord (u "BETWEEN") :: toks alnum t2 32 ++ TWord (u "AND") :: toks alnum t3 32) with
      ([TWord (u "BETWEEN")] ++ toks alnum t2 32 ++ [TWord (u "AND")] ++ toks alnum t3 32).
    rewrite (app_assoc (not_toks n)). apply Lf_Lw_app; [apply Lf_between|]. apply Lw_app; [now apply IHt2| |reflexivity].
    apply Lf_Lw_app; [apply Lf_and|now apply IHt3].
  - apply Lw_app; [now apply IHt|apply Lw_is|destruct n; reflexivity].
  - destruct W as [W1 W2]. rewrite fold_and in W2, G.
    apply (Lw_app f [TWord f]); [now apply Lw_upper| |reflexivity]. apply Lf_Lw, Lf_wrap. apply Lw_join.
    refine (Forall_both wf (good_leaves bs) _ l _ W2 G). rewrite Forall_forall in *. intros x Hx Wx Gx. now apply H.
Qed.
End Tokens.

(** ** Reading the tokens *)
Section Reading.
Variable lev : opk -> nat.
Variable top : nat.
Notation rd := (rd lev top).
Notation loop := (loop lev top).
Notation atom := (atom lev top).
Notation args := (args lev top).

Lemma rd_S n l ts : rd (S n) l ts =
  match atom n ts with Some (a, r) => loop n l a r | None => None end.
Proof. reflexivity. Qed.
Lemma loop_S n l a ts : loop (S n) l a ts =
  match peek ts with
    | None => Some (a, ts)
    | Some (k, r) =>
      if Nat.leb (lev k) l then
        match k with
        | KBin o => match rd n (lev k - 1) r with Some (b, r') => loop n l (EBin o a b) r' | None => None end
        | KIs neg => loop n l (EIs neg a) r
        | KIn neg =>
          match r with
          | p :: r1 => if is_sym SqlRead.LP p then match args n r1 with Some (l', r') => loop n l (EIn neg a l') r' | None => None end
                       else None
          | [] => None
          end
        | KBetween neg =>
          match rd n (lev k - 1) r with
          | Some (b, TWord w :: r') =>
            match kw_of w with
            | Some WAnd => match rd n (lev k - 1) r' with Some (c, r'') => loop n l (EBetween neg a b c) r'' | None => None end
            | _ => None
            end
          | _ => None
          end
        | KNot => None
        end
      else Some (a, ts)
    end.
Proof. reflexivity. Qed.
Lemma atom_S n ts : atom (S n) ts =
  match ts with
    | [] => None
    | t :: r =>
      match call_tok t r with
      | Some (f, r') => match args n r' with Some (l, r'') => Some (ECall f l, r'') | None => None end
      | None =>
        match name_tok t with
        | Some s => let (l, q) := dotted r in Some (ECol (s :: l), q)
        | None =>
          match t with
          | TStr s => Some (EStr s, r)
          | TNum s => Some (EInt (numval s), r)
          | TWord s =>
            match kw_of s with
            | Some WNull => Some (ENull, r)
            | Some WNot => match rd n (lev KNot - 1) r with Some (a, r') => Some (ENot a, r') | None => None end
            | _ => None
            end
          | TSym s =>
            if seqb s (u "*") then Some (EStar, r)
            else if seqb s (u "-") then match atom n r with Some (a, r') => Some (ENeg a, r') | None => None end
            else if seqb s (u "~") then match atom n r with Some (a, r') => Some (EBnot a, r') | None => None end
            else if seqb s SqlRead.LP then
              match rd n top r with
              | Some (a, p :: r') => if is_sym RP p then Some (a, r') else None
              | _ => None
              end
            else None
          | _ => None
          end
        end
      end
    end.
Proof. reflexivity. Qed.
Lemma args_S n ts : args (S n) ts =
  match ts with
    | p :: r =>
      if is_sym RP p then Some ([], r)
      else match rd n top ts with
           | Some (a, q :: r') =>
             if is_sym RP q then Some ([a], r')
             else if is_sym COMMA q then
               match args n r' with
               | Some ([], _) => None
               | Some (l, r'') => Some (a :: l, r'')
               | None => None
               end
             else None
           | _ => None
           end
    | [] => None
    end.
Proof. reflexivity. Qed.

(** More fuel changes nothing. *)
Lemma fuel_more : forall n,
  (forall l ts r, rd n l ts = Some r -> rd (S n) l ts = Some r) /\
  (forall l a ts r, loop n l a ts = Some r -> loop (S n) l a ts = Some r) /\
  (forall ts r, atom n ts = Some r -> atom (S n) ts = Some r) /\
  (forall ts r, args n ts = Some r -> args (S n) ts = Some r).
Proof.
  induction n as [|n (IR & IL & IA & IG)]; [repeat split; intros * H; discriminate H|].
  split; [|split; [|split]].
  - intros l ts r H. rewrite rd_S in H. rewrite rd_S.
    destruct (atom n ts) as [[a q]|] eqn:E; [|discriminate]. rewrite (IA _ _ E). now apply IL.
  - intros l a ts r H. rewrite loop_S in H. rewrite loop_S. remember (S n) as m eqn:Em.
    destruct (peek ts) as [[k q]|]; [|exact H]. destruct (lev k <=? l)%nat; [|exact H].
    destruct k as [o|neg|neg|neg|].
    + destruct (rd n (lev (KBin o) - 1) q) as [[b q']|] eqn:E; [|discriminate]. subst m. rewrite (IR _ _ _ E). now apply IL.
    + destruct q as [|p q]; [discriminate|]. destruct (is_sym SqlRead.LP p); [|discriminate].
      destruct (args n q) as [[l' q']|] eqn:E; [|discriminate]. subst m. rewrite (IG _ _ E). now apply IL.
    + destruct (rd n (lev (KBetween neg) - 1) q) as [[b q']|] eqn:E; [|discriminate]. subst m. rewrite (IR _ _ _ E).
      destruct q' as [|[w| | | |] q']; try discriminate. destruct (kw_of w) as [[]|]; try discriminate.
      destruct (rd n (lev (KBetween neg) - 1) q') as [[b' q'']|] eqn:E'; [|discriminate]. rewrite (IR _ _ _ E'). now apply IL.
    + subst m. now apply IL.
    + discriminate.
  - intros ts r H. rewrite atom_S in H. rewrite atom_S. remember (S n) as m eqn:Em.
    destruct ts as [|t q]; [discriminate|]. destruct (call_tok t q) as [[f q']|].
    { destruct (args n q') as [[l q'']|] eqn:E; [|discriminate]. subst m. now rewrite (IG _ _ E). }
    destruct (name_tok t); [exact H|]. destruct t as [s|s|s|s|s]; try exact H.
    + destruct (kw_of s) as [[]|]; try exact H.
      destruct (rd n (lev KNot - 1) q) as [[b q']|] eqn:E; [|discriminate]. subst m. now rewrite (IR _ _ _ E).
    + destruct (seqb s (u "*")); [exact H|]. destruct (seqb s (u "-")).
      { destruct (atom n q) as [[b q']|] eqn:E; [|discriminate]. subst m. now rewrite (IA _ _ E). }
      destruct (seqb s (u "~")).
      { destruct (atom n q) as [[b q']|] eqn:E; [|discriminate]. subst m. now rewrite (IA _ _ E). }
      destruct (seqb s SqlRead.LP); [|exact H].
      destruct (rd n top q) as [[b q']|] eqn:E; [|discriminate]. subst m. now rewrite (IR _ _ _ E).
  - intros ts r H. rewrite args_S in H. rewrite args_S. remember (S n) as m eqn:Em.
    destruct ts as [|t q]; [discriminate|]. destruct (is_sym RP t); [exact H|].
    destruct (rd n top (t :: q)) as [[b q']|] eqn:E; [|discriminate]. subst m. rewrite (IR _ _ _ E).
    destruct q' as [|p q']; [discriminate|]. destruct (is_sym RP p); [exact H|]. destruct (is_sym COMMA p); [|exact H].
    destruct (args n q') as [[l q'']|] eqn:E'; [|discriminate]. now rewrite (IG _ _ E').
Qed.

(** With enough fuel. *)
Definition evt {A} (f : nat -> option A) (r : A) : Prop := exists n, forall m, (n <= m)%nat -> f m = Some r.

Lemma evt_S {A} (f g : nat -> option A) r : (forall n, g (S n) = f n) -> evt f r -> evt g r.
Proof.
  intros E [n H]. exists (S n). intros m Hm. destruct m as [|m]; [lia|]. rewrite E. apply H. lia.
Qed.
Lemma evt_2 {A B} (f : nat -> option A) (k : nat -> A -> option B) (a : A) r :
  evt f a -> evt (fun n => k n a) r -> evt (fun n => match f n with Some x => k n x | None => None end) r.
Proof.
  intros [n H] [n' H']. exists (Nat.max n n'). intros m Hm. rewrite H by lia. apply H'. lia.
Qed.
Lemma evt_const {A} (a : A) : evt (fun _ => Some a) a.
Proof. now exists 0%nat. Qed.
Lemma evt_ext {A} (f g : nat -> option A) r : (forall n, g n = f n) -> evt f r -> evt g r.
Proof. intros E [n H]. exists n. intros m Hm. rewrite E. now apply H. Qed.

(** What follows an expression of level [l]. *)
Definition stop (l : nat) (rest : list token) : Prop :=
  match rest with
  | [] => True
  | t :: _ => is_sym SqlRead.LP t = false /\ is_sym PERIOD t = false
  end /\
  match peek rest with Some (k, _) => (l <= lev k)%nat | None => True end.

Lemma stop_le l l' rest : (l' <= l)%nat -> stop l rest -> stop l' rest.
Proof. intros L [A B]. split; [exact A|]. destruct (peek rest) as [[k q]|]; [lia|exact I]. Qed.

Lemma loop_stop l a rest : stop (S l) rest -> evt (fun n => loop n l a rest) (a, rest).
Proof.
  intros [_ B]. apply (evt_S (fun _ => Some (a, rest))); [|apply evt_const]. intros n. rewrite loop_S.
  destruct (peek rest) as [[k q]|]; [|reflexivity]. replace (lev k <=? l)%nat with false by lia. reflexivity.
Qed.

Hypothesis HL : lev_ok lev top.
Variable alnum : N -> bool.
Notation toks := (toks alnum).
Definition atomic (t : tree) : Prop :=
  match t with EBin _ _ _ | EIn _ _ _ | EBetween _ _ _ _ | EIs _ _ => False | _ => True end.

Lemma bare_max t : bare max_prec t = true.
Proof. destruct t; try reflexivity. destruct o; reflexivity. Qed.
Lemma toks_bare c t : toks t c = wrap (bare c t) (toks t max_prec).
Proof. destruct t; cbn [FmtExprProof.toks]; rewrite ?bare_max; reflexivity. Qed.

Lemma level_top t : (level lev t <= top)%nat.
Proof. destruct HL as [H _]. destruct t; cbn [level]; try lia; apply H. Qed.

Definition readable (t : tree) : Prop :=
  forall l rest r, (level lev t <= l)%nat -> stop (level lev t) rest ->
  evt (fun n => loop n l t rest) r -> evt (fun n => rd n l (toks t max_prec ++ rest)) r.

Lemma stop_rp l rest : stop l (TSym RP :: rest).
Proof. split; [now split|exact I]. Qed.
Lemma stop_comma l rest : stop l (TSym COMMA :: rest).
Proof. split; [now split|exact I]. Qed.

Lemma read_paren t rest : readable t -> evt (fun n => rd n top (toks t max_prec ++ TSym RP :: rest)) (t, TSym RP :: rest).
Proof. intros Q. apply Q; [apply level_top|apply stop_rp|]. apply loop_stop, stop_rp. Qed.

Lemma atom_paren t rest : readable t -> evt (fun n => atom n (wrap false (toks t max_prec) ++ rest)) (t, rest).
Proof.
  intros Q. eapply evt_S. { intros n. unfold wrap. cbn [app]. rewrite atom_S. cbn [call_tok name_tok]. rewrite <- app_assoc. cbn [app seqb]. reflexivity. }
  cbn. apply (evt_2 _ (fun n (x : tree * list token) => match x with (a, p :: r') => if is_sym RP p then Some (a, r') else None | _ => None end) _ _ (read_paren t rest Q)).
  apply evt_const.
Qed.

(** From an operand to the rest of the expression. *)
Lemma rd_atom l ts t rest r : evt (fun n => atom n ts) (t, rest) -> evt (fun n => loop n l t rest) r -> evt (fun n => rd n l ts) r.
Proof.
  intros A L. apply (evt_S (fun n => match atom n ts with Some (a, r) => loop n l a r | None => None end)); [intros n; apply rd_S|].
  apply (evt_2 _ (fun n (x : tree * list token) => let (a, r) := x in loop n l a r) (t, rest) r A). exact L.
Qed.

Definition eff (c : Z) (t : tree) : nat := if bare c t then level lev t else 0%nat.
Lemma rd_ctx c t : readable t -> forall l rest r, (eff c t <= l)%nat -> stop (eff c t) rest ->
  evt (fun n => loop n l t rest) r -> evt (fun n => rd n l (toks t c ++ rest)) r.
Proof.
  intros Q l rest r E S L. rewrite toks_bare. unfold eff in *. destruct (bare c t).
  - now apply Q.
  - apply (rd_atom l _ t rest r); [now apply atom_paren|exact L].
Qed.

Lemma toks_head : forall t c, wf t -> exists x q, toks t c = x :: q /\ is_sym RP x = false.
Proof.
  assert (W : forall b ts, (exists x q, ts = x :: q /\ is_sym RP x = false) -> exists x q, wrap b ts = x :: q /\ is_sym RP x = false).
  { intros b ts H. destruct b; [exact H|]. eexists _, _. split; reflexivity. }
  assert (A : forall ts us, (exists x q, ts = x :: q /\ is_sym RP x = false) -> exists x q, ts ++ us = x :: q /\ is_sym RP x = false).
  { intros ts us (x & q & -> & E). exists x, (q ++ us). now split. }
  induction t using tree_ind2; intros c0 Wf; cbn [FmtExprProof.toks]; apply W; cbn [wf] in Wf;
    try (eexists _, _; split; reflexivity).
  - destruct l as [|x l]; [congruence|]. cbn [map dtoks]. destruct (map (part_tok alnum) l) eqn:?.
    + eexists _, _. split; [reflexivity|]. unfold part_tok. now destruct (should_quote alnum x).
    + eexists _, _. split; [reflexivity|]. unfold part_tok. now destruct (should_quote alnum x).
  - apply A, IHt1, Wf.
  - apply A, IHt, Wf.
  - apply A, IHt1, Wf.
  - apply A, IHt, Wf.
Qed.

Lemma read_args : forall l, Forall readable l -> Forall wf l -> forall rest,
  evt (fun n => args n (jtoks (map (fun t => toks t max_prec) l) ++ TSym RP :: rest)) (l, rest).
Proof.
  induction l as [|t l IH]; intros F W rest.
  - eapply evt_S; [intros n; rewrite args_S; reflexivity|]. cbn. apply evt_const.
  - inversion F as [|? ? Q F']; subst. inversion W as [|? ? Wt W']; subst.
    destruct (toks_head t max_prec Wt) as (x & q & E & NR).
    destruct l as [|t2 l].
    + cbn [map jtoks]. eapply evt_S.
      { intros n. rewrite args_S. rewrite E. cbn [app]. rewrite NR. rewrite app_comm_cons, <- E. reflexivity. }
      apply (evt_2 _ (fun n (x : tree * list token) => match x with
        | (a, q :: r') => if is_sym RP q then Some ([a], r')
             else if is_sym COMMA q then
               match args n r' with
               | Some ([], _) => None
               | Some (l, r'') => Some (a :: l, r'')
               | None => None
               end
             else None
        | _ => None end) _ _ (read_paren t rest Q)). apply evt_const.
    + change (jtoks (map (fun t => toks t max_prec) (t :: t2 :: l))) with
        (toks t max_prec ++ TSym COMMA :: jtoks (map (fun t => toks t max_prec) (t2 :: l))).
      rewrite <- app_assoc. cbn [app]. eapply evt_S.
      { intros n. rewrite args_S. rewrite E. cbn [app]. rewrite NR. rewrite app_comm_cons, <- E. reflexivity. }
      set (more := jtoks (map (fun t => toks t max_prec) (t2 :: l)) ++ TSym RP :: rest).
      assert (H1 : evt (fun n => rd n top (toks t max_prec ++ TSym COMMA :: more)) (t, TSym COMMA :: more)).
      { apply Q; [apply level_top|apply stop_comma|]. apply loop_stop, stop_comma. }
      apply (evt_2 _ (fun n (x : tree * list token) => match x with
        | (a, q :: r') => if is_sym RP q then Some ([a], r')
             else if is_sym COMMA q then
               match args n r' with
               | Some ([], _) => None
               | Some (l, r'') => Some (a :: l, r'')
               | None => None
               end
             else None
        | _ => None end) _ _ H1).
      change (evt (fun n => match args n more with
               | Some ([], _) => None
               | Some (l, r'') => Some (t :: l, r'')
               | None => None
               end) (t :: t2 :: l, rest)).
      apply (evt_2 _ (fun (n : nat) (x : list tree * list token) => match x with ([], _) => None | (l, r'') => Some (t :: l, r'') end) _ _ (IH F' W' rest)).
      apply evt_const.
Qed.

Lemma peek_op o r : peek (op_toks o ++ r) = Some (KBin o, r).
Proof. destruct o; reflexivity. Qed.
Lemma peek_in n r : peek (not_toks n ++ TWord (u "IN") :: r) = Some (KIn n, r).
Proof. destruct n; reflexivity. Qed.
Lemma peek_between n r : peek (not_toks n ++ TWord (u "BETWEEN") :: r) = Some (KBetween n, r).
Proof. destruct n; reflexivity. Qed.
Lemma peek_is n r : peek (TWord (u "IS") :: not_toks n ++ TWord (u "NULL") :: r) = Some (KIs n, r).
Proof. destruct n; reflexivity. Qed.
Lemma stop_op l o r : (l <= lev (KBin o))%nat -> stop l (op_toks o ++ r).
Proof. intros H. split; [destruct o; now split|]. now rewrite peek_op. Qed.

(** Column names. *)
Lemma dotted_names : forall l x rest, Forall name_ok (x :: l) ->
  match rest with t :: _ => is_sym PERIOD t = false | [] => True end ->
  exists q, dtoks (map (part_tok alnum) (x :: l)) ++ rest = part_tok alnum x :: q /\ dotted q = (l, rest).
Proof.
  induction l as [|y l IH]; intros x rest F R.
  - exists rest. split; [reflexivity|]. destruct rest as [|t [|t' r]]; [reflexivity|reflexivity|]. cbn [dotted]. now rewrite R.
  - inversion F as [|? ? Fx Fl]; subst. destruct (IH y rest Fl R) as (q & E & D).
    exists (TSym PERIOD :: part_tok alnum y :: q). split.
    + change (dtoks (map (part_tok alnum) (x :: y :: l))) with (part_tok alnum x :: TSym PERIOD :: dtoks (map (part_tok alnum) (y :: l))).
      cbn [app]. now rewrite E.
    + cbn [dotted]. change (is_sym PERIOD (TSym PERIOD)) with true. cbv iota.
      rewrite part_name by (inversion Fl; assumption). now rewrite D.
Qed.

Lemma Forall_three (P Q R S : tree -> Prop) l : Forall (fun t => P t -> Q t -> R t -> S t) l ->
  Forall P l -> Forall Q l -> Forall R l -> Forall S l.
Proof. intros A B C D. rewrite Forall_forall in *. auto. Qed.

Lemma read_tree bs : forall t, wf t -> good_leaves bs t -> well_ranked lev t ->
  (atomic t -> forall rest, stop (level lev t) rest -> evt (fun n => atom n (toks t max_prec ++ rest)) (t, rest)) /\ readable t.
Proof.
  destruct HL as [L1 L2].
  assert (AQ : forall t, atomic t -> (forall rest, stop (level lev t) rest -> evt (fun n => atom n (toks t max_prec ++ rest)) (t, rest)) ->
    (atomic t -> forall rest, stop (level lev t) rest -> evt (fun n => atom n (toks t max_prec ++ rest)) (t, rest)) /\ readable t).
  { intros t _ A. split; [intros _; exact A|]. intros l rest r _ S L. apply (rd_atom l _ t rest r); [now apply A|exact L]. }
  assert (NQ : forall t, ~ atomic t -> readable t ->
    (atomic t -> forall rest, stop (level lev t) rest -> evt (fun n => atom n (toks t max_prec ++ rest)) (t, rest)) /\ readable t).
  { intros t N Q. split; [intros A; contradiction|exact Q]. }
  induction t using tree_ind2; intros W G R; cbn [wf good_leaves well_ranked] in W, G, R.
  - (* column *) apply AQ; [exact I|]. intros rest [S _].
    destruct l as [|x l]; [congruence|].
    destruct (dotted_names l x rest G) as (q & E & D). { destruct rest; [exact I|apply S]. }
    change (toks (ECol (x :: l)) max_prec) with (dtoks (map (part_tok alnum) (x :: l))). rewrite E.
    pose proof (part_name alnum x ltac:(inversion G; assumption)) as PN.
    eapply evt_S; [intros n; rewrite atom_S; reflexivity|].
    assert (C : call_tok (part_tok alnum x) q = None).
    { destruct (part_tok alnum x); try reflexivity. destruct q as [|p q]; [reflexivity|]. cbn [call_tok].
      destruct (is_sym SqlRead.LP p) eqn:P; [|reflexivity]. exfalso.
      destruct l as [|y l].
      - cbn [map dtoks app] in E. injection E as _ E. subst rest.
        change (is_sym SqlRead.LP p = false /\ is_sym PERIOD p = false) in S. destruct S as [S _]. congruence.
      - change (dtoks (map (part_tok alnum) (x :: y :: l))) with (part_tok alnum x :: TSym PERIOD :: dtoks (map (part_tok alnum) (y :: l))) in E.
        cbn [app] in E. injection E as _ E _. subst p. discriminate P. }
    rewrite C, PN, D. apply evt_const.
  - apply AQ; [exact I|]. intros rest S. eapply evt_S; [intros n; cbn [app FmtExprProof.toks wrap bare rank]; rewrite atom_S; reflexivity|]. apply evt_const.
  - apply AQ; [exact I|]. intros rest S. eapply evt_S; [intros n; cbn [app FmtExprProof.toks wrap bare rank]; rewrite atom_S; reflexivity|]. apply evt_const.
  - apply AQ; [exact I|]. intros rest S. eapply evt_S; [intros n; cbn [app FmtExprProof.toks wrap bare rank]; rewrite atom_S; cbn [call_tok name_tok]; unfold numval; rewrite parse_str_int; reflexivity|]. apply evt_const.
  - apply AQ; [exact I|]. intros rest S. eapply evt_S; [intros n; cbn [app FmtExprProof.toks wrap bare rank]; rewrite atom_S|].
    { assert (C : call_tok (TWord (u "NULL")) rest = None) by (destruct rest as [|p q]; [reflexivity|unfold call_tok; change (kw_of (u "NULL")) with (Some WNull); now destruct (is_sym SqlRead.LP p)]).
      rewrite C. reflexivity. }
    apply evt_const.
  - (* negative number *) apply AQ; [exact I|]. intros rest S. destruct t; try contradiction.
    assert (A : evt (fun n => atom n (TNum (str_int z) :: rest)) (EInt z, rest)).
    { eapply evt_S; [intros n; rewrite atom_S; cbn [call_tok name_tok]; unfold numval; rewrite parse_str_int; reflexivity|]. apply evt_const. }
    eapply evt_S; [intros n; cbn [app FmtExprProof.toks wrap bare rank]; rewrite atom_S; reflexivity|].
    cbn. apply (evt_2 _ (fun n (x : tree * list token) => let (a, r') := x in Some (ENeg a, r')) _ _ A). apply evt_const.
  - (* ~ *) destruct R as [R LZ]. destruct (IHt W G R) as [A _]. apply AQ; [exact I|]. intros rest S.
    assert (AT : atomic t). { destruct t; try exact I; cbn [level] in LZ; exfalso.
      - pose proof (L1 (KBin o)). lia.
      - pose proof (L1 (KIn neg)). lia.
      - pose proof (L1 (KBetween neg)). lia.
      - pose proof (L1 (KIs neg)). lia. }
    specialize (A AT rest). rewrite LZ in A. specialize (A S). clear IHt.
    eapply evt_S; [intros n; cbn [FmtExprProof.toks]; rewrite bare_max; cbn [wrap app]; rewrite atom_S; reflexivity|].
    cbn. apply (evt_2 _ (fun n (x : tree * list token) => let (a, r') := x in Some (EBnot a, r')) _ _ A). apply evt_const.
  - (* NOT *) destruct (IHt W G R) as [_ Q]. apply AQ; [exact I|]. intros rest S. cbn [level] in S.
    eapply evt_S.
    { intros n. cbn [FmtExprProof.toks]. rewrite bare_max. unfold wrap at 1. rewrite <- app_comm_cons. rewrite atom_S. reflexivity. }
    assert (C : call_tok (TWord (u "NOT")) (wrap false (toks t max_prec) ++ rest) = None) by reflexivity.
    rewrite C. change (name_tok (TWord (u "NOT"))) with (@None pystr). change (kw_of (u "NOT")) with (Some WNot). cbv iota beta.
    apply (evt_2 _ (fun n (x : tree * list token) => let (a, r') := x in Some (ENot a, r')) (t, rest)); [|apply evt_const].
    apply (rd_atom _ _ t rest); [now apply atom_paren|]. apply loop_stop. apply (stop_le (lev KNot)); [|exact S]. pose proof (L1 KNot). lia.
  - (* binary *) destruct W as [W1 W2], G as [G1 G2], R as (R1 & R2 & Ra & Rb).
    destruct (IHt1 W1 G1 R1) as [_ Q1]. destruct (IHt2 W2 G2 R2) as [_ Q2]. apply NQ; [intros A; exact A|].
    intros l rest r Hl S L. cbn [level] in Hl, S. cbn [FmtExprProof.toks]. rewrite bare_max. cbn [wrap].
    rewrite <- !app_assoc.
    assert (Ea : (eff (rank_op o + 1) t1 <= lev (KBin o))%nat) by (unfold eff; destruct (bare (rank_op o + 1) t1); [now apply Ra|lia]).
    assert (Eb : (eff (rank_op o) t2 < lev (KBin o))%nat) by (unfold eff; destruct (bare (rank_op o) t2); [now apply Rb|pose proof (L1 (KBin o)); lia]).
    apply rd_ctx; [exact Q1|lia|now apply stop_op|].
    eapply evt_S; [intros n; rewrite loop_S, peek_op; reflexivity|].
    replace (lev (KBin o) <=? l)%nat with true by lia.
    apply (evt_2 _ (fun n (x : tree * list token) => let (b, r') := x in loop n l (EBin o t1 b) r') (t2, rest)); [|exact L].
    apply rd_ctx; [exact Q2|lia|apply (stop_le (lev (KBin o))); [lia|exact S]|].
    apply loop_stop. apply (stop_le (lev (KBin o))); [lia|exact S].
  - (* IN *) destruct W as [W1 W2], G as [G1 G2], R as (R1 & R2 & Ra). rewrite fold_and in W2, G2, R2.
    destruct (IHt W1 G1 R1) as [_ Q1]. apply NQ; [intros A; exact A|].
    assert (QL : Forall readable l).
    { refine (Forall_three wf (good_leaves bs) (well_ranked lev) _ l _ W2 G2 R2). rewrite Forall_forall in *. intros x Hx Wx Gx Rx. now apply (H x Hx). }
    intros l' rest r Hl S L. cbn [level] in Hl, S. cbn [FmtExprProof.toks]. rewrite bare_max. cbn [wrap].
    rewrite <- !app_assoc. cbn [app]. rewrite <- app_assoc. cbn [app].
    assert (Ea : (eff 32 t <= lev (KIn n))%nat) by (unfold eff; destruct (bare 32 t); [now apply Ra|lia]).
    apply rd_ctx; [exact Q1|lia| |].
    { split; [destruct n; now split|]. now rewrite peek_in. }
    eapply evt_S; [intros m; rewrite loop_S, peek_in; reflexivity|].
    replace (lev (KIn n) <=? l')%nat with true by lia. change (is_sym SqlRead.LP (TSym SqlRead.LP)) with true. cbv iota.
    apply (evt_2 _ (fun n' (x : list tree * list token) => let (l0, r') := x in loop n' l' (EIn n t l0) r') (l, rest)); [|exact L].
    now apply read_args.
  - (* BETWEEN *) destruct W as (W1 & W2 & W3), G as (G1 & G2 & G3), R as (R1 & R2 & R3 & Ra & Rb & Rc).
    destruct (IHt1 W1 G1 R1) as [_ Q1]. destruct (IHt2 W2 G2 R2) as [_ Q2]. destruct (IHt3 W3 G3 R3) as [_ Q3].
    apply NQ; [intros A; exact A|].
    intros l' rest r Hl S L. cbn [level] in Hl, S. cbn [FmtExprProof.toks]. rewrite bare_max. cbn [wrap].
    rewrite <- !app_assoc. cbn [app]. rewrite <- app_assoc. cbn [app].
    assert (Ea : (eff 32 t1 <= lev (KBetween n))%nat) by (unfold eff; destruct (bare 32 t1); [now apply Ra|lia]).
    assert (Eb : (eff 32 t2 < lev (KBetween n))%nat) by (unfold eff; destruct (bare 32 t2); [now apply Rb|pose proof (L1 (KBetween n)); lia]).
    assert (Ec : (eff 32 t3 < lev (KBetween n))%nat) by (unfold eff; destruct (bare 32 t3); [now apply Rc|pose proof (L1 (KBetween n)); lia]).
    apply rd_ctx; [exact Q1|lia| |].
    { split; [destruct n; now split|]. now rewrite peek_between. }
    eapply evt_S; [intros m; rewrite loop_S, peek_between; reflexivity|].
    replace (lev (KBetween n) <=? l')%nat with true by lia.
    assert (SA : forall k q, (k <= lev (KBetween n))%nat -> stop k (TWord (u "AND") :: q)).
    { intros k q Hk. split; [now split|]. cbn. specialize (L2 n). lia. }
    apply (evt_2 _ (fun n' (x : tree * list token) => match x with
       | (b, TWord w :: r') =>
            match kw_of w with
            | Some WAnd => match rd n' (lev (KBetween n) - 1) r' with Some (c, r'') => loop n' l' (EBetween n t1 b c) r'' | None => None end
            | _ => None
            end
       | _ => None end) (t2, TWord (u "AND") :: toks t3 32 ++ rest)).
    + apply rd_ctx; [exact Q2|lia|apply SA; lia|]. apply loop_stop. apply SA. pose proof (L1 (KBetween n)). lia.
    + cbv beta iota. change (kw_of (u "AND")) with (Some WAnd). cbv iota.
      apply (evt_2 _ (fun n' (x : tree * list token) => let (c, r'') := x in loop n' l' (EBetween n t1 t2 c) r'') (t3, rest)); [|exact L].
      apply rd_ctx; [exact Q3|lia|apply (stop_le (lev (KBetween n))); [lia|exact S]|]. apply loop_stop.
      apply (stop_le (lev (KBetween n))); [pose proof (L1 (KBetween n)); lia|exact S].
  - (* IS NULL *) destruct R as [R1 Ra]. destruct (IHt W G R1) as [_ Q1]. apply NQ; [intros A; exact A|].
    intros l' rest r Hl S L. cbn [level] in Hl, S. cbn [FmtExprProof.toks]. rewrite bare_max. cbn [wrap].
    rewrite <- !app_assoc. cbn [app]. rewrite <- app_assoc. cbn [app].
    assert (Ea : (eff 32 t <= lev (KIs n))%nat) by (unfold eff; destruct (bare 32 t); [now apply Ra|lia]).
    apply rd_ctx; [exact Q1|lia| |].
    { split; [now split|]. now rewrite peek_is. }
    eapply evt_S; [intros m; rewrite loop_S, peek_is; reflexivity|].
    replace (lev (KIs n) <=? l')%nat with true by lia. exact L.
  - (* call *) destruct W as [W1 W2]. rewrite fold_and in W2, G, R.
    assert (QL : Forall readable l).
    { refine (Forall_three wf (good_leaves bs) (well_ranked lev) _ l _ W2 G R). rewrite Forall_forall in *. intros x Hx Wx Gx Rx. now apply (H x Hx). }
    apply AQ; [exact I|]. intros rest S. cbn [FmtExprProof.toks bare rank wrap app].
    eapply evt_S.
    { intros n. rewrite atom_S. cbn [call_tok]. change (is_sym SqlRead.LP (TSym SqlRead.LP)) with true. cbv iota.
      rewrite (proj2 W1). rewrite <- app_assoc. cbn [app]. reflexivity. }
    apply (evt_2 _ (fun n' (x : list tree * list token) => let (l0, r'') := x in Some (ECall f l0, r'')) (l, rest)); [|apply evt_const].
    now apply read_args.
Qed.
End Reading.

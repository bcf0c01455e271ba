(** The grammar read on texts follows the grammar read on their parts. *)
From Coq Require Import String Ascii List Arith NArith ZArith Bool Lia ZifyBool ZifyNat ZifyN.
From Verif Require Import Base BaseProof SqlRead ScrubModel OperModel OperSpec LitModel LitSpec LitProof GramModel GramSpec GramNumProof.
Import ListNotations.

(** ** The terminals on lists of parts.  Where the text decides more than the parts, there is an error. *)
Definition in_language (w : pystr) : bool := existsb (seqb w) language.
(** Whether a part is the given word: a name may be the word only if it is not a word of the language; it depends on the
    quotes. *)
Definition kw_is (w : pystr) (x : lexeme) : option bool :=
  match x with
  | LKw w' => Some (seqb w w')
  | LFun v => Some (if in_language w then false else seqb w (map low_char v))
  | LName v => if in_language w then Some false else if seqb w (map low_char v) then None else Some false
  | _ => Some false
  end.
Definition lx_kw (w : pystr) : parser (list lexeme) unit := fun ls =>
  match ls with
  | x :: r => match kw_is w x with Some true => Ok (Some (tt, r)) | Some false => Ok None | None => Err OutOfFuel end
  | [] => Ok None
  end.
Fixpoint lx_kws (l : list pystr) : parser (list lexeme) unit := fun ls =>
  match l with
  | [] => Ok None
  | [w] => lx_kw w ls
  | w :: l => match lx_kw w ls with Ok (Some (_, r)) => lx_kws l r | x => x end
  end.
Fixpoint prefixb (a b : pystr) : bool :=
  match a, b with
  | [], _ => true
  | x :: a, y :: b => N.eqb y x && prefixb a b
  | _, [] => false
  end.
Definition lx_lit (l : list pystr) : parser (list lexeme) pystr := fun ls =>
  match ls with
  | LSym s :: r => match find (fun w => prefixb w s) l with Some w => if seqb w s then Ok (Some (w, r)) else Err OutOfFuel | None => Ok None end
  | _ => Ok None
  end.
Definition lx_ident : parser (list lexeme) pystr := fun ls =>
  match ls with
  | LName v :: r => Ok (Some (v, r))
  | LFun v :: r => Ok (Some (v, r))
  | LKw _ :: _ => Err OutOfFuel
  | _ => Ok None
  end.
Definition lx_string : parser (list lexeme) pystr := fun ls => match ls with LStr v :: r => Ok (Some (v, r)) | _ => Ok None end.
Definition lx_int : parser (list lexeme) Z := fun ls =>
  match ls with LNum z :: r => Ok (Some (z, r)) | LSym _ :: _ => Err OutOfFuel | _ => Ok None end.
Definition lx_end : parser (list lexeme) unit := fun ls => match ls with [] => Ok (Some (tt, [])) | _ => Ok None end.
Definition lx : terminals (list lexeme) :=
  {| t_kw := lx_kw; t_kws := lx_kws; t_lit := lx_lit; t_ident := lx_ident; t_string := lx_string; t_int := lx_int; t_end := lx_end |}.

(** ** Simulation *)
Definition sim {A} (p : parser pystr A) (q : parser (list lexeme) A) : Prop :=
  forall s ls, spelled s ls ->
  match q ls with
  | Ok (Some (a, ls')) => exists s', p s = Ok (Some (a, s')) /\ spelled s' ls'
  | Ok None => p s = Ok None
  | Err _ => True
  end.
Lemma sim_ret {A} (a : A) : sim (ret a) (ret a).
Proof. intros s ls H. unfold ret. eauto. Qed.
Lemma sim_seq {A B} p q (f : A -> parser pystr B) g : sim p q -> (forall a, sim (f a) (g a)) -> sim (seq p f) (seq q g).
Proof.
  intros P F s ls H. unfold seq. specialize (P s ls H). destruct (q ls) as [[[a ls']|]|e]; [|now rewrite P|exact I].
  destruct P as (s' & -> & H'). exact (F a s' ls' H').
Qed.
Lemma sim_alt {A} (p p' : parser pystr A) q q' : sim p q -> sim p' q' -> sim (alt p p') (alt q q').
Proof.
  intros P P' s ls H. unfold alt. specialize (P s ls H). destruct (q ls) as [[[a ls']|]|e]; [|rewrite P; exact (P' s ls H)|exact I].
  destruct P as (s' & -> & H'). eauto.
Qed.
Lemma sim_first {A} (l : list (parser pystr A)) l' : Forall2 sim l l' -> sim (first l) (first l').
Proof. induction 1 as [|p q l l' P F IH]; [intros s ls H; reflexivity|]. now apply sim_alt. Qed.
Lemma sim_option {A} (p : parser pystr A) q : sim p q -> sim (option_of p) (option_of q).
Proof.
  intros P s ls H. unfold option_of. specialize (P s ls H). destruct (q ls) as [[[a ls']|]|e]; [|rewrite P; eauto|exact I].
  destruct P as (s' & -> & H'). eauto.
Qed.
Lemma sim_many {A} k (p : parser pystr A) q : sim p q -> sim (many k p) (many k q).
Proof.
  intros P. induction k as [|k IH]; intros s ls H; [exact I|]. cbn [many]. specialize (P s ls H).
  destruct (q ls) as [[[a ls']|]|e]; [|rewrite P; eauto|exact I]. destruct P as (s' & -> & H').
  specialize (IH s' ls' H'). destruct (many k q ls') as [[[l ls'']|]|e]; [|now rewrite IH|exact I].
  destruct IH as (s'' & -> & H''). eauto.
Qed.
Lemma sim_none {A} (p : parser pystr A) q : sim p q -> sim (none_of p) (none_of q).
Proof.
  intros P s ls H. unfold none_of. specialize (P s ls H). destruct (q ls) as [[[a ls']|]|e]; [|rewrite P; eauto|exact I].
  destruct P as (s' & -> & H'). reflexivity.
Qed.
Lemma sim_act {A B} (p : parser pystr A) q (f : A -> res B) : sim p q -> sim (act p f) (act q f).
Proof.
  intros P s ls H. unfold act. specialize (P s ls H). destruct (q ls) as [[[a ls']|]|e]; [|now rewrite P|exact I].
  destruct P as (s' & -> & H'). destruct (f a) as [b|e]; [eauto|exact I].
Qed.
Lemma sim_as {A B} (p : parser pystr A) q (b : B) : sim p q -> sim (as_ p b) (as_ q b).
Proof. apply sim_act. Qed.
Lemma sim_unmodelled {A B} (p : parser pystr A) q : sim p q -> sim (@unmodelled _ A B p) (unmodelled q).
Proof.
  intros P s ls H. unfold unmodelled. specialize (P s ls H). destruct (q ls) as [[[a ls']|]|e]; [exact I|now rewrite P|exact I].
Qed.
Lemma sim_absent {A} (p : parser pystr A) q : sim p q -> sim (absent p) (absent q).
Proof. intros P. apply sim_alt; [now apply sim_unmodelled|apply sim_ret]. Qed.
Lemma sim_list {A} k (p : parser pystr A) q c c' : sim p q -> sim c c' -> sim (list_of k p c) (list_of k q c').
Proof.
  intros P C. apply sim_seq; [exact P|]. intros a. apply sim_seq; [|intros l; apply sim_ret]. apply sim_many.
  apply sim_seq; [exact C|]. intros _. exact P.
Qed.
Lemma sim_error {A} (p : parser pystr A) e : sim p (fun _ => Err e).
Proof. intros s ls H. exact I. Qed.

(** ** The white space between the parts *)
Lemma keyword_ident c : keyword_char c = true -> ident_char c = true.
Proof. unfold keyword_char, ident_char, is_digit. lia. Qed.
Lemma keyword_facts c : keyword_char c = true -> blank c = false /\ c <> 35 /\ c <> 45 /\ c <> 47 /\ c <> 39 /\ c <> 34 /\ c <> 96 /\ c <> 91 /\ c <> 46.
Proof. unfold keyword_char, is_digit, blank. lia. Qed.
(** Characters with which no white space and no comment begins. *)
Definition solid (c : N) : bool := negb (blank c || N.eqb c 35 || N.eqb c 45 || N.eqb c 47).
Lemma solid_keyword c : keyword_char c = true -> solid c = true.
Proof. unfold solid, keyword_char, is_digit, blank. lia. Qed.
Lemma low_keyword c : keyword_char (low_char c) = true -> keyword_char c = true.
Proof. unfold keyword_char, low_char, is_digit. destruct ((65 <=? c) && (c <=? 90))%N eqn:E; lia. Qed.
(** Words: small letters, digits and _, the first no digit. *)
Definition word_char (c : N) : bool := ((97 <=? c) && (c <=? 122) || (c =? 95) || is_digit c)%N.
Definition wordyb (w : pystr) : bool := match w with [] => false | c :: _ => forallb word_char w && negb (is_digit c) end.
Definition wordy (w : pystr) : Prop := w <> [] /\ forallb word_char w = true /\ is_digit (hd 0%N w) = false.
Lemma wordyb_ok w : wordyb w = true -> wordy w.
Proof.
  unfold wordyb. destruct w as [|c w]; [discriminate|]. intros H. apply andb_true_iff in H. destruct H as [A B]. split; [discriminate|]. split; [exact A|].
  cbn [hd]. now apply negb_true_iff.
Qed.
Lemma in_language_ok w : in_language w = true -> In w language.
Proof. unfold in_language. rewrite existsb_exists. intros (x & X & E). apply seqb_eq in E. now subst. Qed.
Lemma language_letters : forallb wordyb language = true.
Proof. vm_compute. reflexivity. Qed.
Lemma language_word w : In w language -> wordy w.
Proof. intros H. apply wordyb_ok. exact (proj1 (forallb_forall _ _) language_letters w H). Qed.
Lemma kw_text w t : In w language -> map low_char t = w -> t <> [] /\ forallb keyword_char t = true.
Proof.
  intros L E. destruct (language_word w L) as (NE & A & _). split; [intros ->; cbn in E; congruence|]. rewrite forallb_forall. intros c C.
  apply low_keyword. rewrite forallb_forall in A. specialize (A (low_char c)). cbn beta in A.
  assert (X : In (low_char c) w) by (rewrite <- E; now apply in_map). specialize (A X). unfold keyword_char, word_char in *. lia.
Qed.
Lemma prefix_refl a : is_prefix a a. Proof. exists []. now rewrite app_nil_r. Qed.
Lemma symbols_heads : forallb (fun s => match s with [] => false | c :: r =>
  (solid c || (N.eqb c 45 || N.eqb c 47) && match r with [] => true | _ => false end) && negb (ident_char c) && negb (is_digit c) &&
  negb (N.eqb c 39) && negb (N.eqb c 34) && negb (N.eqb c 96) && negb (N.eqb c 91) && negb (N.eqb c 46) && negb (blank c) && negb (N.eqb c 35) end) symbols = true.
Proof. vm_compute. reflexivity. Qed.
(** How a written part begins. *)
Lemma writes_head x t next : writes x t next -> exists c r, t = c :: r /\ blank c = false /\ c <> 35%N /\ c <> 46%N /\
  (solid c = true \/ r = [] /\ ((c = 45%N /\ forall r', next <> 45%N :: r') \/ (c = 47%N /\ forall r', next <> 42%N :: r'))).
Proof.
  assert (W : forall t, t <> [] /\ forallb keyword_char t = true -> exists c r, t = c :: r /\ keyword_char c = true).
  { intros t0 [N0 F]. destruct t0 as [|c r]; [congruence|]. cbn in F. apply andb_true_iff in F. destruct F as [F _]. eauto. }
  assert (K : forall t, t <> [] /\ forallb keyword_char t = true -> exists c r, t = c :: r /\ blank c = false /\ c <> 35%N /\ c <> 46%N /\
    (solid c = true \/ r = [] /\ ((c = 45%N /\ forall r', next <> 45%N :: r') \/ (c = 47%N /\ forall r', next <> 42%N :: r')))).
  { intros t0 H. destruct (W t0 H) as (c & r & E & C). exists c, r. pose proof (keyword_facts c C) as F. repeat split; try tauto. left. now apply solid_keyword. }
  intros H. destruct H as [w t next IN E NX|v next P NX|v next P NX|v next P NX|z t next P NX|l next P NX|v next P1 P2 P3 NX|s next IN NX].
  - apply K. now apply (kw_text w).
  - apply K. split; apply P.
  - exists 96%N, (doubled 96 v ++ [96])%N. repeat split; try reflexivity; try discriminate. left. reflexivity.
  - apply K. split; apply P.
  - apply numeral_iff in P. destruct P as (N0 & D & _). destruct t as [|c r]; [congruence|]. exists c, r. cbn in D. apply andb_true_iff in D. destruct D as [D _].
    unfold is_digit in D. unfold solid, blank. repeat split; try lia; left; lia.
  - exists 39%N, (src l ++ [39])%N. repeat split; try reflexivity; try discriminate. left. reflexivity.
  - exists 34%N, (v ++ [34])%N. repeat split; try reflexivity; try discriminate. left. reflexivity.
  - pose proof (proj1 (forallb_forall _ _) symbols_heads s IN) as X. cbn beta in X. destruct s as [|c r]; [discriminate|]. exists c, r.
    repeat (apply andb_true_iff in X; destruct X as [X ?]). repeat (split; [reflexivity || lia|]).
    apply orb_true_iff in X. destruct X as [X|X]; [now left|right]. apply andb_true_iff in X. destruct X as [X Y].
    destruct r; [|discriminate]. split; [reflexivity|]. apply orb_true_iff in X. destruct X as [X|X]; apply N.eqb_eq in X; subst c; [left|right]; (split; [reflexivity|]); intros r' ->.
    + destruct (NX (u "--")) as [z Z]; [vm_compute; tauto|exists r'; reflexivity|]. discriminate Z.
    + destruct (NX (u "/*")) as [z Z]; [vm_compute; tauto|exists r'; reflexivity|]. discriminate Z.
Qed.

Lemma skip_blank c s : blank c = true -> skip (c :: s) = skip s.
Proof. intros B. unfold skip. cbn [length skip_fuel]. now rewrite B. Qed.
Lemma skip_white b s : blanks b -> skip (b ++ s) = skip s.
Proof.
  induction b as [|c b IH]; intros H; [reflexivity|]. cbn [app]. apply Forall_cons_iff in H. destruct H as [C H].
  rewrite skip_blank by (now apply blank_In). now apply IH.
Qed.
Lemma skip_solid c s : solid c = true -> skip (c :: s) = c :: s.
Proof.
  unfold solid. intros H. unfold skip. cbn [length skip_fuel]. destruct (blank c); [discriminate|].
  destruct (N.eqb_spec c 35); [subst; discriminate|]. destruct s as [|d s]; [reflexivity|].
  destruct (N.eqb_spec c 45); [subst; discriminate|]. destruct (N.eqb_spec c 47); [subst; discriminate|]. reflexivity.
Qed.
Lemma skip_written x t next : writes x t next -> skip (t ++ next) = t ++ next.
Proof.
  intros H. destruct (writes_head x t next H) as (c & r & -> & B & C & _ & [S|(-> & S)]); [now apply skip_solid|].
  cbn [app]. unfold skip. cbn [length skip_fuel]. rewrite B. destruct (N.eqb_spec c 35); [congruence|]. destruct next as [|d next]; [reflexivity|].
  destruct S as [(-> & S)|(-> & S)]; cbn [N.eqb Pos.eqb andb].
  - destruct (N.eqb_spec d 45) as [->|]; [now elim (S next)|reflexivity].
  - destruct (N.eqb_spec d 42) as [->|]; [now elim (S next)|reflexivity].
Qed.
Lemma skip_line_none d : ~ In 10%N d -> skip_line d = [].
Proof. induction d as [|c d IH]; intros H; [reflexivity|]. cbn [skip_line]. destruct (N.eqb_spec c 10); [subst; elim H; now left|]. apply IH. intros I0. apply H. now right. Qed.
Lemma fuel_nil f : skip_fuel f [] = []. Proof. now destruct f. Qed.
Lemma skip_trail w : trail w -> skip w = [].
Proof.
  intros (b & c & -> & B & C). rewrite skip_white by exact B. destruct C as [->|(m & d & -> & [->| ->] & D)]; [reflexivity| |].
  - change (u "--" ++ d) with (45 :: 45 :: d)%N. unfold skip. cbn [length skip_fuel blank N.eqb Pos.eqb orb andb]. rewrite (skip_line_none d D). try reflexivity; apply fuel_nil.
  - change (u "#" ++ d) with (35 :: d)%N. unfold skip. cbn [length skip_fuel blank N.eqb Pos.eqb orb andb]. rewrite (skip_line_none d D). try reflexivity; apply fuel_nil.
Qed.
Lemma skip_spelled s ls : spelled s ls -> skip s = s.
Proof.
  intros H. destruct H as [|x t w W T|x t w rest ls W B NE R]; [reflexivity| |].
  - now apply (skip_written x).
  - now apply (skip_written x).
Qed.
(** What comes after the first part. *)
Lemma spelled_inv s x ls : spelled s (x :: ls) -> exists t next, s = t ++ next /\ writes x t next /\ spelled (skip next) ls /\
  (ls = [] /\ trail next \/ exists w, blanks w /\ next = w ++ skip next /\ ls <> []).
Proof.
  intros H. inversion H as [|x0 t w W T E1|x0 t w rest ls0 W B NE R E1]; subst.
  - exists t, w. split; [reflexivity|]. split; [exact W|]. rewrite (skip_trail w T). split; [constructor|]. now left.
  - exists t, (w ++ rest). split; [reflexivity|]. split; [exact W|]. rewrite (skip_white w rest B), (skip_spelled rest ls R).
    split; [exact R|]. right. exists w. auto.
Qed.
Lemma spelled_nil s : spelled s [] -> s = [].
Proof. intros H. now inversion H. Qed.

(** ** Keywords *)
Lemma low_letter c x : word_char x = true -> low_char c = x -> keyword_char c = true.
Proof. unfold word_char, low_char, keyword_char, is_digit. destruct ((65 <=? c) && (c <=? 90))%N eqn:E; lia. Qed.
(** A keyword in a text of word characters that ends there. *)
Lemma keyword_word w : forallb word_char w = true -> forall t next, forallb keyword_char t = true ->
  (forall c r, next = c :: r -> keyword_char c = false) ->
  keyword_at w (t ++ next) = if seqb w (map low_char t) then Some next else None.
Proof.
  induction w as [|x w IH]; intros A t next T NX.
  - destruct t as [|c t]; cbn [app map keyword_at].
    + destruct next as [|c next]; [reflexivity|]. classes. rewrite (NX c next eq_refl). reflexivity.
    + cbn in T. apply andb_true_iff in T. classes. destruct T as [-> _]. reflexivity.
  - cbn [forallb] in A. apply andb_true_iff in A. destruct A as [X A]. destruct t as [|c t]; cbn [app map keyword_at].
    + destruct next as [|c next]; [reflexivity|]. classes. destruct (N.eqb_spec (low_char c) x) as [E|]; [|reflexivity].
      pose proof (low_letter c x X E) as Y. rewrite (NX c next eq_refl) in Y. discriminate.
    + cbn in T. apply andb_true_iff in T. destruct T as [_ T]. cbn [seqb]. rewrite N.eqb_sym. classes. destruct (N.eqb x (low_char c)); [|reflexivity].
      now apply IH.
Qed.
Lemma keyword_other w c s : wordy w -> keyword_char c = false -> keyword_at w (c :: s) = None.
Proof.
  intros (NE & A & _) C. destruct w as [|x w]; [congruence|]. cbn [forallb keyword_at] in *. apply andb_true_iff in A. destruct A as [X _].
  classes. destruct (N.eqb_spec (low_char c) x) as [E|]; [|reflexivity]. rewrite (low_letter c x X E) in C. discriminate.
Qed.
Lemma seqb_false a b : a <> b -> seqb a b = false.
Proof. intros H. destruct (seqb a b) eqn:E; [|reflexivity]. now apply seqb_eq in E. Qed.
Lemma not_kw_head x t next : writes x t next -> match x with LKw _ | LName _ | LFun _ => True | _ => match t with c :: _ => keyword_char c = false \/ is_digit c = true | [] => False end end.
Proof.
  intros H. destruct H as [w t next IN E NX|v next P NX|v next P NX|v next P NX|z t next P NX|l next P NX|v next P1 P2 P3 NX|s next IN NX]; try exact I.
  - apply numeral_iff in P. destruct P as (N0 & D & _). destruct t as [|c r]; [congruence|]. right. cbn in D. now apply andb_true_iff in D.
  - left. reflexivity.
  - left. reflexivity.
  - pose proof (proj1 (forallb_forall _ _) symbols_heads s IN) as X. cbn beta in X. destruct s as [|c r]; [discriminate|].
    repeat (apply andb_true_iff in X; destruct X as [X ?]). left. destruct (keyword_char c) eqn:Q; [|reflexivity]. apply keyword_ident in Q. rewrite Q in *. discriminate.
Qed.
Lemma digit_not_letter w c s : wordy w -> is_digit c = true -> keyword_at w (c :: s) = None.
Proof.
  intros (NE & A & D) C. destruct w as [|x w]; [congruence|]. cbn [forallb keyword_at hd] in *. apply andb_true_iff in A. destruct A as [X _].
  classes. destruct (N.eqb_spec (low_char c) x) as [E|]; [|reflexivity]. unfold low_char, is_digit in *. destruct ((65 <=? c) && (c <=? 90))%N eqn:Q; lia.
Qed.
(** A keyword at the beginning of the parts. *)
Lemma word_next v next : plain_name v -> (forall c r, next = c :: r -> ident_char c = false /\ ~ In c [45; 46; 93; 96]%N) ->
  forall w, wordy w -> keyword_at w (v ++ next) = if seqb w (map low_char v) then Some next else None.
Proof.
  intros (P0 & P1 & P2 & P3) NX w (_ & A & _). apply (keyword_word w A v next P1). intros c r E. destruct (NX c r E) as [Q _].
  destruct (keyword_char c) eqn:Z; [|reflexivity]. apply keyword_ident in Z. congruence.
Qed.
Lemma keyword_part w x t next : wordy w -> writes x t next ->
  match kw_is w x with Some b => keyword_at w (t ++ next) = if b then Some next else None | None => True end.
Proof.
  intros W H. pose proof (not_kw_head x t next H) as HD.
  destruct H as [w' t next IN E NX|v next P NX|v next P NX|v next P NX|z t next P NX|l next P NX|v next P1 P2 P3 NX|s next IN NX]; cbn [kw_is].
  - rewrite (keyword_word w (proj1 (proj2 W)) t next (proj2 (kw_text w' t IN E)) NX). now rewrite E.
  - destruct (in_language w) eqn:L.
    + rewrite (word_next v next P NX w W). rewrite seqb_false; [reflexivity|]. intros ->. apply in_language_ok in L. now apply P.
    + destruct (seqb w (map low_char v)) eqn:Q; [exact I|]. now rewrite (word_next v next P NX w W), Q.
  - destruct (in_language w); [now apply keyword_other|]. destruct (seqb w (map low_char v)); [exact I|now apply keyword_other].
  - rewrite (word_next v next P NX w W). destruct (in_language w) eqn:L; [|reflexivity].
    rewrite seqb_false; [reflexivity|]. intros ->. apply in_language_ok in L. now apply P.
  - destruct t as [|c r]; [contradiction|]. cbn [app]. destruct HD as [HD|HD]; [now apply keyword_other|now apply digit_not_letter].
  - now apply keyword_other.
  - now apply keyword_other.
  - destruct s as [|c r]; [contradiction|]. cbn [app]. destruct HD as [HD|HD]; [now apply keyword_other|now apply digit_not_letter].
Qed.
Lemma keyword_nil w : w <> [] -> keyword_at w [] = None.
Proof. now destruct w. Qed.
Lemma sim_kw w : wordy w -> sim (text_kw w) (lx_kw w).
Proof.
  intros L s ls H. unfold text_kw, lx_kw. destruct ls as [|x ls].
  - rewrite (spelled_nil s H). now rewrite keyword_nil by apply L.
  - destruct (spelled_inv s x ls H) as (t & next & -> & W & R & _). pose proof (keyword_part w x t next L W) as Q.
    destruct (kw_is w x) as [[|]|]; [| |exact I]; rewrite Q; [eauto|reflexivity].
Qed.
(** Between two words there are only blanks, so the words of a phrase are found where the white space ends. *)
Lemma skip_blanks_next next ls : spelled (skip next) ls -> (ls = [] /\ trail next \/ exists w, blanks w /\ next = w ++ skip next /\ ls <> []) ->
  ls <> [] -> skip_blanks next = skip next.
Proof.
  intros R [(-> & _)|(w & B & E & _)] NE; [congruence|]. rewrite E at 1. rewrite skip_app by exact B.
  destruct ls as [|x ls]; [congruence|]. destruct (spelled_inv _ x ls R) as (t & n2 & E2 & W & _ & _). rewrite E2.
  destruct (writes_head x t n2 W) as (c & r & -> & C & _). cbn [app skip_blanks]. now rewrite C.
Qed.
Lemma trail_word w next : wordy w -> trail next -> keyword_at w (skip_blanks next) = None.
Proof.
  intros L (b & c & -> & B & C). rewrite skip_app by exact B.
  destruct C as [->|(m & d & -> & [->| ->] & D)]; [now apply keyword_nil, L| |]; now apply keyword_other.
Qed.
Lemma keywords_other l next : Forall wordy l -> trail next -> keywords_at l (skip_blanks next) = None.
Proof. intros L T. destruct L as [|w l W L]; [reflexivity|]. cbn [keywords_at]. now rewrite trail_word. Qed.
Lemma sim_kws l : Forall wordy l -> sim (text_kws l) (lx_kws l).
Proof.
  induction 1 as [|w l LW L IH]; intros s ls H; [reflexivity|]. unfold text_kws. cbn [keywords_at lx_kws]. destruct l as [|w2 l].
  - pose proof (sim_kw w LW s ls H) as X. unfold text_kw in X. destruct (lx_kw w ls) as [[[a ls']|]|]; [| |exact I].
    + destruct X as (s' & X & R). destruct (keyword_at w s); [|discriminate]. eauto.
    + destruct (keyword_at w s); [discriminate|reflexivity].
  - destruct ls as [|x ls].
    + rewrite (spelled_nil s H). cbn [lx_kw]. now rewrite keyword_nil by apply LW.
    + destruct (spelled_inv s x ls H) as (t & next & -> & W & R & Q). pose proof (keyword_part w x t next LW W) as KP. cbn [lx_kw].
      destruct (kw_is w x) as [[|]|]; [| |exact I]; rewrite KP; [|reflexivity]. specialize (IH (skip next) ls R). unfold text_kws in IH.
      destruct ls as [|y ls].
      * destruct Q as [(_ & T)|(b & _ & _ & NE)]; [|congruence]. rewrite (keywords_other (w2 :: l) next L T).
        cbn [lx_kws lx_kw]. destruct l; reflexivity.
      * rewrite (skip_blanks_next next (y :: ls) R Q) by discriminate. exact IH.
Qed.

Lemma literal_at_spec w s : match literal_at w s with Some r => s = w ++ r | None => ~ is_prefix w s end.
Proof.
  revert s. induction w as [|x w IH]; intros s; [reflexivity|]. cbn [literal_at]. destruct s as [|c s]; [intros [r E]; discriminate|].
  destruct (N.eqb_spec c x) as [->|NE]; [|intros [r E]; cbn in E; congruence]. specialize (IH s). destruct (literal_at w s).
  - cbn. now rewrite IH.
  - intros [r E]. apply IH. exists r. cbn in E. congruence.
Qed.
Lemma prefixb_spec w s : prefixb w s = true <-> is_prefix w s.
Proof.
  revert s. induction w as [|x w IH]; intros s; [split; [intros _; exists s; reflexivity|reflexivity]|]. cbn [prefixb]. destruct s as [|c s].
  - split; [discriminate|intros [r E]; discriminate].
  - rewrite andb_true_iff, IH. split.
    + intros [E [r R]]. apply N.eqb_eq in E. subst. exists r. reflexivity.
    + intros [r E]. cbn in E. injection E as -> ->. split; [apply N.eqb_refl|now exists r].
Qed.
Lemma all_symbols_heads : forallb (fun s => match s with [] => false | c :: _ => negb (keyword_char c || N.eqb c 39 || N.eqb c 34 || N.eqb c 96) end) all_symbols = true.
Proof. vm_compute. reflexivity. Qed.
Lemma symbol_head s : In s all_symbols -> exists c r, s = c :: r /\ keyword_char c = false /\ c <> 39%N /\ c <> 34%N /\ c <> 96%N.
Proof.
  intros H. pose proof (proj1 (forallb_forall _ _) all_symbols_heads s H) as X. cbn beta in X. destruct s as [|c r]; [discriminate|].
  exists c, r. split; [reflexivity|]. repeat split; try (destruct (keyword_char c); [discriminate|reflexivity]); intros ->; discriminate.
Qed.
(** Parts that are no symbols. *)
Lemma other_head x t next : writes x t next -> match x with LSym _ => True | _ => exists c r, t = c :: r /\ (keyword_char c = true \/ c = 39 \/ c = 34 \/ c = 96)%N end.
Proof.
  assert (W : forall t, t <> [] -> forallb keyword_char t = true -> exists c r, t = c :: r /\ (keyword_char c = true \/ c = 39 \/ c = 34 \/ c = 96)%N).
  { intros t0 N0 F. destruct t0 as [|c r]; [congruence|]. cbn in F. apply andb_true_iff in F. destruct F as [F _]. eauto. }
  intros H. destruct H as [w t next IN E NX|v next P NX|v next P NX|v next P NX|z t next P NX|l next P NX|v next P1 P2 P3 NX|s next IN NX].
  - destruct (kw_text w t IN E). now apply W.
  - apply W; apply P.
  - exists 96%N, (doubled 96 v ++ [96])%N. auto.
  - apply W; apply P.
  - apply numeral_iff in P. destruct P as (N0 & D & _). apply W; [exact N0|]. rewrite forallb_forall in *. intros c C. specialize (D c C). unfold keyword_char. now rewrite D.
  - exists 39%N, (src l ++ [39])%N. auto.
  - exists 34%N, (v ++ [34])%N. auto 6.
  - exact I.
Qed.
Lemma lit_other w c s : In w all_symbols -> (keyword_char c = true \/ c = 39 \/ c = 34 \/ c = 96)%N -> literal_at w (c :: s) = None.
Proof.
  intros L C. destruct (symbol_head w L) as (x & r & -> & X1 & X2 & X3 & X4). cbn [literal_at]. destruct (N.eqb_spec c x) as [->|]; [|reflexivity].
  exfalso. destruct C as [C|[C|[C|C]]]; congruence.
Qed.
Lemma text_lit_none l s : (forall w, In w l -> literal_at w s = None) -> text_lit l s = Ok None.
Proof. induction l as [|w l IH]; intros H; [reflexivity|]. cbn [text_lit]. rewrite (H w) by now left. apply IH. intros v V. apply H. now right. Qed.
Lemma sim_lit l : (forall w, In w l -> In w all_symbols) -> sim (text_lit l) (lx_lit l).
Proof.
  intros L s ls H. destruct ls as [|x ls].
  - rewrite (spelled_nil s H). cbn [lx_lit]. apply text_lit_none. intros w W. destruct (symbol_head w (L w W)) as (c & r & -> & _). reflexivity.
  - destruct (spelled_inv s x ls H) as (t & next & -> & W & R & _). pose proof (other_head x t next W) as O. destruct x as [w|v|v|z|v|sy]; cbn [lx_lit];
      try (destruct O as (c & r & -> & C); apply text_lit_none; intros v0 V; cbn [app]; apply lit_other; [now apply L|exact C]).
    inversion W as [| | | | | | |s0 n0 IN NX]; subst. clear O H. induction l as [|w l IH]; [reflexivity|]. cbn [find text_lit].
    pose proof (literal_at_spec w (t ++ next)) as SP. destruct (prefixb w t) eqn:PB.
    + destruct (seqb w t) eqn:E; [|exact I]. apply seqb_eq in E. subst w. destruct (literal_at t (t ++ next)) as [r|].
      * apply app_inv_head in SP. subst r. eauto.
      * elim SP. now exists next.
    + destruct (literal_at w (t ++ next)) as [r|].
      * exfalso. assert (X : is_prefix w t) by (apply NX; [apply L; now left|exists r; exact SP]). apply prefixb_spec in X. congruence.
      * apply IH. intros v V. apply L. now right.
Qed.

(** ** Names, strings, numbers *)
Section Lits.
Variables (uname : pystr -> option N) (more : pystr -> pystr -> res pystr).
Lemma no_dot_next next ls : spelled (skip next) ls -> (ls = [] /\ trail next \/ exists w, blanks w /\ next = w ++ skip next /\ ls <> []) ->
  match skip_blanks next with d :: _ => d <> 46%N | [] => True end.
Proof.
  intros R Q. destruct ls as [|x ls].
  - destruct Q as [(_ & (b & c & -> & B & C))|(b & _ & _ & NE)]; [|congruence]. rewrite skip_app by exact B.
    destruct C as [->|(m & d & -> & [->| ->] & D)]; [exact I| |]; cbn; discriminate.
  - rewrite (skip_blanks_next next (x :: ls) R Q) by discriminate. destruct (spelled_inv _ x ls R) as (t & n2 & E2 & W & _ & _). rewrite E2.
    destruct (writes_head x t n2 W) as (c & r & -> & _ & _ & D & _). exact D.
Qed.
Lemma name_alone n s v next : read_part uname more s = Ok (v, next) -> match skip_blanks next with d :: _ => d <> 46%N | [] => True end ->
  read_name uname more (S n) s = Ok (v, next).
Proof.
  intros P D. cbn [read_name]. rewrite P. cbn [bind]. destruct (skip_blanks next) as [|d r]; [reflexivity|]. destruct (N.eqb_spec d 46); [congruence|reflexivity].
Qed.
Lemma plain_part v next : plain_name v -> (forall c r, next = c :: r -> ident_char c = false /\ ~ In c [45; 46; 93; 96]%N) ->
  read_part uname more (v ++ next) = Ok (v, next).
Proof.
  intros (P0 & P1 & P2 & P3) NX. unfold read_part. destruct v as [|c v]; [congruence|]. cbn [forallb] in P1. apply andb_true_iff in P1. destruct P1 as [PC PV].
  pose proof (keyword_facts c PC) as F. cbn [app]. unfold read_quoted_name at 1. destruct (N.eqb_spec c 96); [tauto|]. destruct (N.eqb_spec c 91); [tauto|].
  apply (read_simple uname more (c :: v) next); [discriminate| |exact P2|].
  - cbn [forallb]. classes. rewrite (keyword_ident c PC). cbn [andb]. rewrite forallb_forall in *. intros x X. apply keyword_ident. now apply PV.
  - destruct next as [|d r]; [exact I|]. destruct (NX d r eq_refl) as [A B]. cbn [In] in B. split; [exact A|]. intros ->. tauto.
Qed.
Lemma escape_id v : ~ In 46%N v -> escape_dots v = v.
Proof.
  unfold escape_dots, replace_char. induction v as [|c v IH]; intros H; [reflexivity|]. cbn [flat_map]. destruct (N.eqb_spec c 46); [subst; elim H; now left|].
  cbn [app]. f_equal. apply IH. intros X. apply H. now right.
Qed.
Lemma quoted_part v next : quoted_name v -> (forall c r, next = c :: r -> ~ In c [46; 96]%N) ->
  read_part uname more ((96 :: doubled 96 v ++ [96]) ++ next)%N = Ok (v, next).
Proof.
  intros (P0 & P1 & P2) NX. unfold read_part. replace ((96 :: doubled 96 v ++ [96]) ++ next)%N with (96 :: doubled 96 v ++ 96 :: next)%N by (cbn [app]; now rewrite <- app_assoc).
  rewrite read_back; [now rewrite escape_id|exact P1|]. destruct next as [|d r]; [exact I|]. intros ->. apply (NX 96%N r eq_refl). cbn. tauto.
Qed.
(** Parts that are no names. *)
Lemma no_name c s n : c <> 96%N -> c <> 91%N -> (ident_char c = false \/ is_digit c = true) ->
  read_name uname more (S n) (c :: s) = Err ValueError /\ quoted_next (c :: s) = false.
Proof.
  intros A B C. cbn [read_name read_part read_quoted_name quoted_next]. unfold read_part, read_quoted_name. destruct (N.eqb_spec c 96); [congruence|]. destruct (N.eqb_spec c 91); [congruence|].
  unfold read_simple_name. assert (X : ident_char c && negb (is_digit c) = false) by (destruct C as [->| ->]; [reflexivity|now rewrite andb_false_r]).
  classes. rewrite X. split; reflexivity.
Qed.
Lemma sim_ident : sim (text_ident uname more) lx_ident.
Proof.
  intros s ls H. destruct ls as [|x ls]; [rewrite (spelled_nil s H); reflexivity|].
  destruct (spelled_inv s x ls H) as (t & next & -> & W & R & Q). pose proof (no_dot_next next ls R Q) as ND.
  destruct W as [w t next IN E NX|v next P NX|v next P NX|v next P NX|z t next P NX|l next P NX|v next P1 P2 P3 NX|s next IN NX]; cbn [lx_ident]; unfold text_ident.
  - exact I.
  - rewrite (name_alone _ _ _ _ (plain_part v next P NX) ND). eauto.
  - rewrite (name_alone _ _ _ _ (quoted_part v next P NX) ND). eauto.
  - rewrite (name_alone _ _ _ _ (plain_part v next P NX) ND). eauto.
  - apply numeral_iff in P. destruct P as (N0 & D & _). destruct t as [|c r]; [congruence|]. cbn in D. apply andb_true_iff in D. destruct D as [D _]. cbn [app].
    destruct (no_name c (r ++ next) (length (c :: r ++ next))) as [-> ->]; [unfold is_digit in D; lia|unfold is_digit in D; lia|now right|reflexivity].
  - cbn [app]. destruct (no_name 39 ((src l ++ [39]) ++ next)%N (length (39 :: (src l ++ [39]) ++ next)%N)) as [-> ->]; [lia|lia|now left|reflexivity].
  - cbn [app]. destruct (no_name 34 ((v ++ [34]) ++ next)%N (length (34 :: (v ++ [34]) ++ next)%N)) as [-> ->]; [lia|lia|now left|reflexivity].
  - pose proof (proj1 (forallb_forall _ _) symbols_heads s IN) as X. cbn beta in X. destruct s as [|c r]; [discriminate|].
    repeat (apply andb_true_iff in X; destruct X as [X ?]). cbn [app].
    destruct (no_name c (r ++ next) (length (c :: r ++ next))) as [-> ->]; [lia|lia|left; destruct (ident_char c); [discriminate|reflexivity]|reflexivity].
Qed.
Lemma no_string c s : c <> 39%N -> c <> 34%N -> text_string uname more (c :: s) = Ok None.
Proof. intros A B. unfold text_string, read_string, string_next. destruct (N.eqb_spec c 39); [congruence|]. destruct (N.eqb_spec c 34); [congruence|]. reflexivity. Qed.
Lemma sim_string : sim (text_string uname more) lx_string.
Proof.
  intros s ls H. destruct ls as [|x ls]; [rewrite (spelled_nil s H); reflexivity|].
  destruct (spelled_inv s x ls H) as (t & next & -> & W & R & Q).
  assert (KW : forall t, t <> [] /\ forallb keyword_char t = true -> text_string uname more (t ++ next) = Ok None).
  { intros t0 [N0 F]. destruct t0 as [|c r]; [congruence|]. cbn in F. apply andb_true_iff in F. destruct F as [F _]. pose proof (keyword_facts c F) as X. cbn [app]. now apply no_string. }
  destruct W as [w t next IN E NX|v next P NX|v next P NX|v next P NX|z t next P NX|l next P NX|v next P1 P2 P3 NX|s next IN NX]; cbn [lx_string].
  - apply KW. now apply (kw_text w).
  - apply KW. split; apply P.
  - cbn [app]. now apply no_string.
  - apply KW. split; apply P.
  - apply numeral_iff in P. destruct P as (N0 & D & _). apply KW. split; [exact N0|]. rewrite forallb_forall in *. intros c C. specialize (D c C). unfold keyword_char. now rewrite D.
  - unfold text_string. replace ((39 :: src l ++ [39]) ++ next)%N with (39 :: src l ++ 39 :: next)%N by (cbn [app]; now rewrite <- app_assoc).
    rewrite read_pieces; [eauto|exact P|]. destruct next as [|d r]; [exact I|]. apply (NX d r eq_refl).
  - unfold text_string. replace ((34 :: v ++ [34]) ++ next)%N with (34 :: doubled 34 v ++ 34 :: next)%N by (cbn [app]; rewrite doubled_none by exact P3; now rewrite <- app_assoc).
    rewrite read_double; [rewrite doubled_none by exact P3; eauto|exact P1|exact P2|]. destruct next as [|d r]; [exact I|]. apply (NX d r eq_refl).
  - pose proof (proj1 (forallb_forall _ _) symbols_heads s IN) as X. cbn beta in X. destruct s as [|c r]; [discriminate|].
    repeat (apply andb_true_iff in X; destruct X as [X ?]). cbn [app]. apply no_string; lia.
Qed.
Lemma digits_app t next : forallb is_digit t = true -> (forall c r, next = c :: r -> is_digit c = false) -> digits_at (t ++ next) = (t, next).
Proof.
  induction t as [|c t IH]; intros D NX; cbn [app digits_at].
  - destruct next as [|c next]; [reflexivity|]. cbn [digits_at]. classes. now rewrite (NX c next eq_refl).
  - cbn [forallb] in D. apply andb_true_iff in D. classes. destruct D as [-> D]. now rewrite (IH D NX).
Qed.
Lemma no_number c s : is_digit c = false -> c <> 45%N -> c <> 43%N -> c <> 46%N -> text_int (c :: s) = Ok None.
Proof.
  intros D A B C. unfold text_int. destruct (N.eqb_spec c 45); [congruence|]. destruct (N.eqb_spec c 43); [congruence|]. cbn [digits_at]. classes. rewrite D.
  destruct s; [reflexivity|]. destruct (N.eqb_spec c 46); [congruence|reflexivity].
Qed.
Lemma sim_int : sim text_int lx_int.
Proof.
  intros s ls H. destruct ls as [|x ls]; [rewrite (spelled_nil s H); reflexivity|].
  destruct (spelled_inv s x ls H) as (t & next & -> & W & R & Q).
  destruct W as [w t next IN E NX|v next P NX|v next P NX|v next P NX|z t next P NX|l next P NX|v next P1 P2 P3 NX|s next IN NX]; cbn [lx_int].
  - destruct (language_word w IN) as (NE & A & D). destruct t as [|c r]; [subst w; now elim NE|]. cbn [app]. subst w. cbn [map forallb hd] in A, D. apply andb_true_iff in A. destruct A as [A _].
    assert (X : is_digit c = false /\ c <> 45%N /\ c <> 43%N /\ c <> 46%N) by (unfold low_char, word_char, is_digit in *; destruct ((65 <=? c) && (c <=? 90))%N eqn:Q0; lia).
    now apply no_number.
  - destruct P as (P0 & P1 & P2 & P3). destruct v as [|c v]; [congruence|]. cbn [forallb hd] in P1, P2. apply andb_true_iff in P1. destruct P1 as [PC _]. cbn [app].
    unfold keyword_char in PC. apply no_number; [exact P2| | |]; lia.
  - cbn [app]. now apply no_number.
  - destruct P as (P0 & P1 & P2 & P3). destruct v as [|c v]; [congruence|]. cbn [forallb hd] in P1, P2. apply andb_true_iff in P1. destruct P1 as [PC _]. cbn [app].
    unfold keyword_char in PC. apply no_number; [exact P2| | |]; lia.
  - apply numeral_iff in P. destruct P as (N0 & D & ->). assert (DN : digits_at (t ++ next) = (t, next)).
    { apply digits_app; [exact D|]. intros c r E. destruct (NX c r E) as [A _]. unfold ident_char in A. destruct (is_digit c); [|reflexivity]. now rewrite !orb_true_r in A. }
    destruct t as [|c t]; [congruence|]. unfold text_int.
    pose proof D as D2. cbn [forallb] in D2. apply andb_true_iff in D2. destruct D2 as [D2 _]. unfold is_digit in D2.
    cbn [app] in DN |- *. destruct (N.eqb_spec c 45); [lia|]. destruct (N.eqb_spec c 43); [lia|]. rewrite DN. destruct next as [|d next].
    + exists []. split; [reflexivity|]. exact R.
    + destruct (NX d next eq_refl) as [A B]. cbn [In] in B. destruct (N.eqb_spec d 46); [subst; tauto|]. destruct (N.eqb_spec d 96); [subst; tauto|]. destruct (N.eqb_spec d 91); [subst; tauto|].
      classes. rewrite A. cbn [orb]. exists (skip (d :: next)). split; [reflexivity|exact R].
  - cbn [app]. now apply no_number.
  - cbn [app]. now apply no_number.
  - exact I.
Qed.
Lemma sim_end : sim text_end lx_end.
Proof.
  intros s ls H. destruct ls as [|x ls]; [rewrite (spelled_nil s H); cbn; exists []; split; [reflexivity|constructor]|].
  destruct (spelled_inv s x ls H) as (t & next & -> & W & R & Q). destruct (writes_head x t next W) as (c & r & -> & _). reflexivity.
Qed.
End Lits.

(** ** The grammar *)
Section Whole.
Variables (uname : pystr -> option N) (more : pystr -> pystr -> res pystr) (ft : pystr -> bool) (k : nat).
Notation tx := (text_terminals uname more).
Definition in_symbols (w : pystr) : bool := existsb (seqb w) all_symbols.
Lemma in_symbols_ok w : in_symbols w = true -> In w all_symbols.
Proof. unfold in_symbols. rewrite existsb_exists. intros (x & X & E). apply seqb_eq in E. now subst. Qed.
Lemma s_kw w : wordyb (u w) = true -> sim (kw tx w) (kw lx w).
Proof. intros H. apply sim_kw. now apply wordyb_ok. Qed.
Lemma s_kws l : forallb (fun w => wordyb (u w)) l = true -> sim (kws tx l) (kws lx l).
Proof.
  intros H. apply sim_kws. rewrite Forall_forall. intros w W. apply in_map_iff in W. destruct W as (x & <- & X). apply wordyb_ok. rewrite forallb_forall in H. now apply H.
Qed.
Lemma s_kw_of l : forallb (fun w => wordyb (u w)) l = true -> sim (kw_of tx l) (kw_of lx l).
Proof.
  intros H. apply sim_first. induction l as [|w l IH]; [constructor|]. cbn [forallb] in H. apply andb_true_iff in H. destruct H as [A B].
  cbn [map]. constructor; [now apply s_kw|now apply IH].
Qed.
Lemma s_lits l : forallb in_symbols l = true -> sim (t_lit tx l) (t_lit lx l).
Proof. intros H. apply sim_lit. intros w W. apply in_symbols_ok. rewrite forallb_forall in H. now apply H. Qed.
Lemma s_lit w : in_symbols (u w) = true -> sim (lit tx w) (lit lx w).
Proof. intros H. apply sim_as. apply s_lits. cbn [forallb]. now rewrite H. Qed.
Lemma s_reserved : sim (first (map (t_kw tx) reserved)) (first (map (t_kw lx) reserved)).
Proof.
  assert (H : forall l, (forall w, In w l -> In w language) -> sim (first (map (t_kw tx) l)) (first (map (t_kw lx) l))).
  { induction l as [|w l IH]; intros L; [intros s ls H; reflexivity|]. cbn [map first]. apply sim_alt; [apply sim_kw, language_word, L; now left|].
    apply IH. intros v V. apply L. now right. }
  apply H. intros w W. apply in_language_ok.
  assert (A : forallb in_language reserved = true) by (vm_compute; reflexivity). rewrite forallb_forall in A. now apply A.
Qed.
Lemma s_var : sim (var_name tx) (var_name lx).
Proof. apply sim_seq; [apply sim_none, s_reserved|]. intros _. apply sim_ident. Qed.
Ltac one := first [assumption | lazymatch goal with
  | |- sim (ret _) _ => apply sim_ret
  | |- sim (var_name _) _ => apply s_var
  | |- sim (seq _ _) _ => apply sim_seq; [|intros ?]
  | |- sim (alt _ _) _ => apply sim_alt
  | |- sim (first _) _ => apply sim_first
  | |- sim (option_of _) _ => apply sim_option
  | |- sim (many _ _) _ => apply sim_many
  | |- sim (act _ _) _ => apply sim_act
  | |- sim (as_ _ _) _ => apply sim_as
  | |- sim (unmodelled _) _ => apply sim_unmodelled
  | |- sim (absent _) _ => apply sim_absent
  | |- sim (list_of _ _ _) _ => apply sim_list
  | |- sim (kw _ _) _ => apply s_kw; vm_compute; reflexivity
  | |- sim (kws _ _) _ => apply s_kws; vm_compute; reflexivity
  | |- sim (kw_of _ _) _ => apply s_kw_of; vm_compute; reflexivity
  | |- sim (lit _ _) _ => apply s_lit; vm_compute; reflexivity
  | |- sim (t_lit _ _) _ => apply s_lits; vm_compute; reflexivity
  | |- sim (t_int _) _ => apply sim_int
  | |- sim (t_string _) _ => apply sim_string
  | |- sim (t_ident _) _ => apply sim_ident
  | |- Forall2 _ (_ :: _) _ => apply Forall2_cons
  | |- Forall2 _ [] _ => apply Forall2_nil
  end].
Ltac st := repeat one.
Lemma s_infix : sim (infix_op tx) (infix_op lx).
Proof. unfold infix_op, word_op, symbol_op. st. Qed.
Lemma s_prefix : sim (prefix_op tx) (prefix_op lx).
Proof. unfold prefix_op. st. Qed.
Lemma s_suffix : sim (no_suffix tx) (no_suffix lx).
Proof. unfold no_suffix. st. Qed.
Lemma s_modified a b : sim a b -> sim (modified tx k a) (modified lx k b).
Proof. intros H. unfold modified. pose proof s_prefix. pose proof s_suffix. st. Qed.
Lemma s_expr a b : sim a b -> sim (expr tx ft k a) (expr lx ft k b).
Proof. intros H. unfold expr, flat. pose proof s_infix. pose proof (s_modified a b H). st. Qed.
Lemma s_ahead : sim (query_ahead tx k) (query_ahead lx k).
Proof. unfold query_ahead, LB. st. Qed.
Lemma s_call e e' : sim e e' -> sim (call_function tx k e) (call_function lx k e').
Proof. intros H. unfold call_function, LB, RB, comma. pose proof s_ahead. st. Qed.
Lemma s_compound p q e e' : sim p q -> sim e e' -> sim (compound tx k p e) (compound lx k q e').
Proof. intros P E. unfold compound, LB, RB, comma. pose proof s_ahead. pose proof (s_call e e' E). st. Qed.
Lemma s_integer : sim (integer tx) (integer lx).
Proof. unfold integer. st. Qed.
Lemma s_atom n : sim (atom tx ft k n) (atom lx ft k n).
Proof. induction n as [|n IH]; [intros s ls H; exact I|]. cbn [atom]. apply s_compound; [apply s_integer|]. now apply s_expr. Qed.
Lemma s_expression n : sim (expression tx ft k n) (expression lx ft k n).
Proof. apply s_expr, s_atom. Qed.
Lemma s_limit_value n : sim (limit_value tx ft k n) (limit_value lx ft k n).
Proof. unfold limit_value, comma. apply s_compound; [|apply s_expression]. pose proof s_integer. st. Qed.
Lemma s_no_alias : sim (no_alias tx) (no_alias lx).
Proof. unfold no_alias. st. Qed.
Lemma s_limits n : sim (limits tx ft k n) (limits lx ft k n).
Proof.
  unfold limits, offset_clause, limit_clause. pose proof (s_expression n). pose proof (s_limit_value n). apply sim_seq; [st|]. intros [x|]; st.
  match goal with y : option pv |- _ => destruct y end; st.
Qed.
Lemma s_query n : sim (query tx ft k n) (query lx ft k n).
Proof.
  unfold query, unordered_sql, selection, select_column, from_clause, table_source, order_clause, sort_column, LB, comma.
  pose proof (s_expression n). pose proof s_no_alias. pose proof (s_limits n). pose proof s_ahead. st.
Qed.
Lemma s_insert n : sim (insert tx ft k n) (insert lx ft k n).
Proof. unfold insert, row, LB, RB, comma. pose proof (s_expression n). pose proof s_ahead. st. Qed.
Lemma s_update n : sim (update tx ft k n) (update lx ft k n).
Proof. unfold update, assignment, where_clause, comma. pose proof (s_expression n). st. Qed.
Lemma s_delete n : sim (delete tx ft k n) (delete lx ft k n).
Proof. unfold delete, where_clause. pose proof (s_expression n). st. Qed.
Lemma s_drop : sim (drop_table tx) (drop_table lx).
Proof. unfold drop_table. st. Qed.
Lemma s_sizes b : sim (sizes_of tx k b) (sizes_of lx k b).
Proof. destruct b; unfold sizes_of, LB, RB, comma; st. Qed.
Lemma s_type x : forallb (fun w => wordyb (u w)) (fst (fst x)) = true -> sim (simple_type tx k x) (simple_type lx k x).
Proof.
  destruct x as [[ws b] un]. cbn [fst]. intros H. unfold simple_type. apply sim_seq; [now apply s_kws|]. intros _. apply sim_seq; [apply s_sizes|].
  intros l. apply sim_seq; [destruct un; st|]. intros o. apply sim_ret.
Qed.
Lemma s_types : sim (column_type tx k) (column_type lx k).
Proof.
  unfold column_type. apply sim_alt; [st|]. apply sim_first.
  assert (W : forallb (fun x => forallb (fun w => wordyb (u w)) (fst (fst x))) simple_types = true) by (vm_compute; reflexivity).
  induction simple_types as [|x l IH]; [constructor|]. cbn [forallb] in W. apply andb_true_iff in W. destruct W as [A B].
  cbn [map]. constructor; [now apply s_type|now apply IH].
Qed.
Lemma s_references : sim (references tx k) (references lx k).
Proof. unfold references, LB, RB, comma. st. Qed.
Lemma s_option e e' : sim e e' -> sim (column_option tx k e) (column_option lx k e').
Proof. intros H. unfold column_option, LB. pose proof s_references. st. Qed.
Lemma s_definition e e' : sim e e' -> sim (column_definition tx k e) (column_definition lx k e').
Proof. intros H. unfold column_definition. pose proof s_types. pose proof (s_option e e' H). st. Qed.
Lemma s_constraint : sim (table_constraint tx k) (table_constraint lx k).
Proof. unfold table_constraint, constraint_of, index_columns, index_options, on_delete, LB, RB, comma. pose proof s_references. st. Qed.
Lemma s_create n : sim (create_table tx ft k n) (create_table lx ft k n).
Proof.
  unfold create_table, table_element, table_option, LB, RB, comma. pose proof (s_definition _ _ (s_expression n)). pose proof s_constraint. st.
Qed.
Lemma s_whole n : sim (whole tx ft k n) (whole lx ft k n).
Proof.
  unfold whole, statement. pose proof (s_query n). pose proof (s_insert n). pose proof (s_update n). pose proof (s_delete n). pose proof (s_create n). pose proof s_drop.
  apply sim_seq; [st|]. intros x. apply sim_seq; [exact (sim_end)|]. intros _. apply sim_ret.
Qed.
End Whole.

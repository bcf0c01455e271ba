(** C104: the functions that stand for the regular expressions of the grammar give what Python's re gives. *)
From Coq Require Import String Ascii List Arith NArith Bool Lia.
From Verif Require Import Base EngineModel EngineProps EngineSqlModel EngineSqlProps WhiteModel WhiteSpec RegexModel RegexSpec RegexProof.
Import ListNotations.

(** The places that are tried are those where the expression may end. *)
Theorem C104_tried : forall r x y, In y (ends r x) <-> matches r x y.
Proof. exact ends_matches. Qed.
Print Assumptions C104_tried.

(** Numbers, wherever they stand in a text. *)
Theorem C104_numbers : forall before l,
  re_match real_re (before, l) = m_real l /\ re_match int_re (before, l) = m_int l /\ re_match hex_re (before, l) = m_hex l.
Proof. intros b l. split; [apply real_ok|]. split; [apply int_ok | apply hex_ok]. Qed.
Print Assumptions C104_numbers.

(** Strings and quoted names. *)
Theorem C104_quoted : forall o q before l, re_match (quoted_re o q) (before, l) = m_quoted o q l.
Proof. exact quoted_ok. Qed.
Print Assumptions C104_quoted.

(** Names with dashes inside, whatever character stands before. *)
Theorem C104_names : forall before l, re_match ident_re (before, l) = m_ident l.
Proof. exact ident_ok. Qed.
Print Assumptions C104_names.

(** White space and comments, if comments do not begin with white space. *)
Theorem C104_white : forall ws gs, (forall g, In g gs -> exists c p, opening g = c :: p /\ ~ In c ws) ->
  forall before l, re_match (white_re ws gs) (before, l) = Some (regex_match ws gs l).
Proof. exact white_ok. Qed.
Print Assumptions C104_white.

(** A text in quotes is taken as a whole, up to the quote that ends it. *)
Theorem C104_literal : forall o q before w rest, hd_error rest <> Some q ->
  re_match (quoted_re o q) (before, o :: double q w ++ q :: rest) = Some (length (o :: double q w ++ [q])).
Proof.
  intros o q b w rest H. rewrite quoted_ok. unfold m_quoted. rewrite N.eqb_refl, (closing_double q w rest H). f_equal. cbn [length]. rewrite app_length. cbn. lia.
Qed.
Print Assumptions C104_literal.
(** What is taken is such a text, and nothing is taken only where there is no opening or no closing character. *)
Theorem C104_taken : forall o q before l,
  match re_match (quoted_re o q) (before, l) with
  | Some n => exists w rest, l = o :: double q w ++ q :: rest /\ n = length (o :: double q w ++ [q])
  | None => forall t, l = o :: t -> ~ In q t
  end.
Proof.
  intros o q b l. rewrite quoted_ok. unfold m_quoted. destruct l as [|c l]; [discriminate|]. destruct (N.eqb_spec c o) as [->|Hc].
  - destruct (closing q l) as [n|] eqn:C.
    + destruct (closing_some q _ l n (le_n _) C) as (w & rest & -> & ->). exists w, rest. split; [reflexivity|]. cbn [length]. rewrite app_length. cbn. lia.
    + intros t E. injection E as <-. apply closing_none. exact C.
  - intros t E. injection E as -> _. destruct (Hc eq_refl).
Qed.
Print Assumptions C104_taken.

(** ** Examples *)
Example C104_example :
  re_match real_re (None, u "-12.50e+3x") = Some 9 /\ re_match real_re (None, u ".5e") = Some 2 /\ re_match int_re (None, u "7e+x") = Some 1 /\
  re_match hex_re (Some 32%N, u "0xFFg") = Some 4 /\ re_match (quoted_re 39 39) (None, u "'it''s' x") = Some 7 /\
  re_match ident_re (Some 32%N, u "a-b-1") = Some 3 /\
  re_match (white_re [9; 10; 13; 32]%N [Line (u "--"); Line (u "#"); Block (u "/*") (u "*/")]) (None, u " /* * */ # x") = Some 12.
Proof. vm_compute. repeat split. Qed.
Example C104_literal_example : hd_error (u ", b") <> Some 39%N /\ double 39 (u "it's") = u "it''s" /\
  re_match (quoted_re 39 39) (None, u "'it''s', b") = Some 7.
Proof. split; [discriminate|]. split; reflexivity. Qed.
Example C104_tried_example : ends (plus d) (None, u "12a") = [(Some 50%N, u "a"); (Some 49%N, u "2a")].
Proof. reflexivity. Qed.
Example C104_white_example : forall g, In g [Line (u "--"); Line (u "#"); Block (u "/*") (u "*/")] ->
  exists c p, opening g = c :: p /\ ~ In c [9; 10; 13; 32]%N.
Proof. intros g [<-|[<-|[<-|[]]]]; eexists _, _; (split; [reflexivity|]); cbn; intuition discriminate. Qed.

(** A whole number with a negative exponent is not taken as a number: the digits are, and what follows is another name and a subtraction. *)
Theorem C104_exponent_refuted : forall before ds e t, Forall (fun c => digit c = true) ds -> ds <> [] -> In e (u "eE") ->
  re_match real_re (before, ds ++ e :: 45%N :: t) = None /\ re_match int_re (before, ds ++ e :: 45%N :: t) = Some (length ds).
Proof. intros b ds e t F N E. rewrite real_ok, int_ok. apply exponent_minus; assumption. Qed.
Print Assumptions C104_exponent_refuted.
Theorem C104_exponent_parse_refuted :
  written (fun w => w) any spaces sql 9 7 (u "select 1e-5") 0 = Done (map u ["1"; "e"; "-"; "5"]%string) 11 /\
  written (fun w => w) any spaces sql 9 7 (u "select 1.0e-5") 0 = Done (map u ["1.0e-5"]%string) 13.
Proof. split; vm_compute; reflexivity. Qed.
Print Assumptions C104_exponent_parse_refuted.

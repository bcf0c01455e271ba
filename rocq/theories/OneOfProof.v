From Coq Require Import String Ascii List Arith NArith Bool Lia Permutation.
From Verif Require Import Base BaseProof RangeModel RangeSpec RangeProof OneOfModel OneOfSpec.
Import ListNotations.

(** ** The order *)
Lemma starts_iff p : forall t, startswith t p = true <-> exists r, t = p ++ r.
Proof.
  induction p as [|c p IH]; intros t.
  - split; [intros _; exists t; reflexivity | destruct t; reflexivity].
  - destruct t as [|d t]; cbn [startswith]; [split; [discriminate | intros (r & E); discriminate E]|].
    rewrite andb_true_iff, N.eqb_eq, IH. split.
    + intros (-> & r & ->). exists r. reflexivity.
    + intros (r & E). injection E as -> ->. split; [reflexivity | exists r; reflexivity].
Qed.
Lemma scan_none cl cur l : scan cl cur l = None -> forall o, In o l -> masks cl cur o = false.
Proof.
  induction l as [|x l IH]; cbn [scan]; [intros _ o []|].
  destruct (isequal cl x cur); [discriminate|]. destruct (masks cl cur x) eqn:M; [discriminate|].
  destruct (scan cl cur l) as [[m r]|]; [discriminate|]. intros _ o [->|I]; [exact M | exact (IH eq_refl o I)].
Qed.
Lemma scan_del cl cur l l' : scan cl cur l = Some (None, l') -> exists o, Permutation l (o :: l') /\ key cl o = key cl cur.
Proof.
  revert l'. induction l as [|x l IH]; intros l'; cbn [scan]; [discriminate|].
  destruct (isequal cl x cur) eqn:Q; [intros [= <-]; exists x; split; [reflexivity | apply seqb_eq; exact Q]|].
  destruct (masks cl cur x); [discriminate|].
  destruct (scan cl cur l) as [[m r]|]; [|discriminate]. intros [= -> <-]. destruct (IH r eq_refl) as (o & P & K).
  exists o. split; [rewrite P; apply perm_swap | exact K].
Qed.
Lemma scan_move cl cur l o l' : scan cl cur l = Some (Some o, l') -> Permutation l (o :: l') /\ length (key cl cur) < length (key cl o).
Proof.
  revert l'. induction l as [|x l IH]; intros l'; cbn [scan]; [discriminate|].
  destruct (isequal cl x cur) eqn:Q; [discriminate|].
  destruct (masks cl cur x) eqn:M.
  - intros [= <- <-]. split; [reflexivity|]. apply starts_iff in M as (r & E). apply seqb_neq in Q. rewrite E, app_length.
    destruct r; [rewrite app_nil_r in E; destruct (Q E) | cbn; lia].
  - destruct (scan cl cur l) as [[m r]|]; [|discriminate]. intros [= -> <-]. destruct (IH r eq_refl) as (P & K). split; [rewrite P; apply perm_swap | exact K].
Qed.

Definition clear (cl : bool) (l : list pystr) : Prop := ForallOrdPairs (fun a b => masks cl a b = false) l.
Lemma clear_app cl a b : clear cl a -> clear cl b -> (forall x y, In x a -> In y b -> masks cl x y = false) -> clear cl (a ++ b).
Proof.
  intros A B H. induction A as [|x a F A IH]; [exact B|]. cbn [app]. constructor.
  - apply Forall_app. split; [exact F | apply Forall_forall; intros y I; apply H; [left; reflexivity | exact I]].
  - apply IH. intros y z I J. apply H; [right; exact I | exact J].
Qed.
Definition longer (cl : bool) (s : pystr) (l : list pystr) : nat := length (filter (fun o => Nat.ltb (length (key cl s)) (length (key cl o))) l).
Lemma longer_perm cl s l l' : Permutation l l' -> longer cl s l = longer cl s l'.
Proof.
  unfold longer. induction 1 as [|x a b P IH|x y a|a b c P1 IH1 P2 IH2]; cbn [filter]; [reflexivity | | | lia].
  - destruct (Nat.ltb _ _); cbn [length]; lia.
  - repeat destruct (Nat.ltb _ _); reflexivity.
Qed.
Lemma longer_le cl s l : longer cl s l <= length l.
Proof. unfold longer. induction l as [|x l IH]; cbn [filter]; [lia|]. destruct (Nat.ltb _ _); cbn [length]; lia. Qed.
Lemma longer_mono cl s o l : length (key cl s) < length (key cl o) -> longer cl o l <= longer cl s l.
Proof.
  intros H. unfold longer. induction l as [|x l IH]; cbn [filter]; [lia|].
  destruct (Nat.ltb_spec (length (key cl o)) (length (key cl x))), (Nat.ltb_spec (length (key cl s)) (length (key cl x))); cbn [length]; lia.
Qed.
Lemma longer_cons cl s x l : longer cl s (x :: l) = (if Nat.ltb (length (key cl s)) (length (key cl x)) then 1 else 0) + longer cl s l.
Proof. unfold longer. cbn [filter]. destruct (Nat.ltb _ _); reflexivity. Qed.
Definition measure (cl : bool) (n : nat) (l : list pystr) : nat := match l with [] => 0 | s :: r => length l * (n + 1) + longer cl s r end.

(** The loop ends; no symbol masks a later one; the symbols are the given ones but for equal ones. *)
Lemma reorder_ok cl n : forall fuel before from, length from <= n -> measure cl n from < fuel ->
  clear cl before -> (forall x y, In x before -> In y from -> masks cl x y = false) ->
  exists l, reorder fuel cl before from = Some l /\ clear cl l /\ (forall s, In s l -> In s before \/ In s from) /\
    (forall s, In s before \/ In s from -> exists s', In s' l /\ key cl s' = key cl s).
Proof.
  induction fuel as [|fuel IH]; intros before from L M C H; [lia|]. cbn [reorder].
  destruct from as [|cur [|o later]].
  - exists before. split; [reflexivity|]. split; [exact C|]. split; [intros s I; left; exact I|]. intros s [I|[]]. exists s. split; [exact I | reflexivity].
  - exists (before ++ [cur]). split; [reflexivity|]. split; [apply clear_app; [exact C | repeat constructor | exact H]|].
    split; [intros s I; apply in_app_iff in I; exact I|]. intros s I. exists s. split; [apply in_app_iff; exact I | reflexivity].
  - set (r := o :: later) in *. destruct (scan cl cur r) as [[[other|] r']|] eqn:E.
    + apply scan_move in E as (P & K). pose proof (Permutation_length P) as PL. cbn [length] in PL, L.
      assert (Q : Permutation (cur :: r) (other :: cur :: r')) by (rewrite P; apply perm_swap).
      destruct (IH before (other :: cur :: r')) as (l & R & Cl & A & B).
      * cbn [length]. lia.
      * cbn [measure length] in M |- *. rewrite longer_cons. rewrite (longer_perm cl cur _ _ P), longer_cons in M. rewrite PL in M.
        pose proof (longer_mono cl cur other r' K) as Lm.
        destruct (Nat.ltb_spec (length (key cl other)) (length (key cl cur))); [lia|].
        destruct (Nat.ltb_spec (length (key cl cur)) (length (key cl other))); lia.
      * exact C.
      * intros x y I J. apply H; [exact I | exact (Permutation_in y (Permutation_sym Q) J)].
      * exists l. split; [exact R|]. split; [exact Cl|]. split.
        -- intros s I. destruct (A s I) as [I'|I']; [left; exact I' | right; exact (Permutation_in s (Permutation_sym Q) I')].
        -- intros s I. apply B. destruct I as [I|I]; [left; exact I | right; exact (Permutation_in s Q I)].
    + apply scan_del in E as (d & P & K). pose proof (Permutation_length P) as PL. cbn [length] in PL, L.
      assert (S : forall y, In y (cur :: r') -> In y (cur :: r)).
      { intros y [->|J]; [left; reflexivity | right; apply (Permutation_in y (Permutation_sym P)); right; exact J]. }
      destruct (IH before (cur :: r')) as (l & R & Cl & A & B).
      * cbn [length]. lia.
      * cbn [measure length] in M |- *. rewrite PL in M. pose proof (longer_le cl cur r') as Lr. lia.
      * exact C.
      * intros x y I J. exact (H x y I (S y J)).
      * exists l. split; [exact R|]. split; [exact Cl|]. split.
        -- intros s I. destruct (A s I) as [I'|I']; [left; exact I' | right; exact (S s I')].
        -- intros s [I|[->|I]]; [apply B; left; exact I | apply B; right; left; reflexivity|].
           apply (Permutation_in s P) in I as [<-|I]; [|apply B; right; right; exact I].
           destruct (B cur) as (s' & I' & K'); [right; left; reflexivity|]. exists s'. split; [exact I' | congruence].
    + pose proof (scan_none cl cur r E) as Z. cbn [length] in L.
      destruct (IH (before ++ [cur]) r) as (l & R & Cl & A & B).
      * lia.
      * unfold r in *. cbn [measure length] in M, L |- *. pose proof (longer_le cl o later) as Lr. lia.
      * apply clear_app; [exact C | repeat constructor|]. intros x y I [<-|[]]. apply H; [exact I | left; reflexivity].
      * intros x y I J. apply in_app_iff in I as [I|[<-|[]]]; [apply H; [exact I | right; exact J] | exact (Z y J)].
      * exists l. split; [exact R|]. split; [exact Cl|]. split.
        -- intros s I. destruct (A s I) as [I'|I']; [apply in_app_iff in I' as [I'|[<-|[]]]; [left; exact I' | right; left; reflexivity] | right; right; exact I'].
        -- intros s I. apply B. destruct I as [I|[->|I]]; [left; apply in_app_iff; left; exact I | left; apply in_app_iff; right; left; reflexivity | right; exact I].
Qed.
Lemma ordered_ok cl symbols : exists l, ordered cl symbols = Some l /\ clear cl l /\ (forall s, In s l -> In s symbols) /\
  (forall s, In s symbols -> exists s', In s' l /\ key cl s' = key cl s).
Proof.
  destruct (reorder_ok cl (length symbols) ((length symbols + 1) * (length symbols + 1) + 1) [] symbols) as (l & R & C & A & B).
  - lia.
  - destruct symbols as [|s r]; [cbn; lia|]. unfold measure. pose proof (longer_le cl s r) as L. cbn [length] in *. nia.
  - constructor.
  - intros x y [].
  - exists l. split; [exact R|]. split; [exact C|]. split; [intros s I; destruct (A s I) as [[]|I']; exact I' | intros s I; apply B; right; exact I].
Qed.

(** ** Reading the pattern *)
Lemma special_cases c : (existsb (N.eqb c) re_specials = true /\ escaped c = Some c) \/
  (existsb (N.eqb c) re_specials = false /\ (c =? 92)%N = false /\ (c =? 124)%N = false /\ (c =? 91)%N = false /\ meta c = false).
Proof.
  destruct (existsb (N.eqb c) re_specials) eqn:E.
  - left. split; [reflexivity|]. apply existsb_exists in E as (x & I & Q). apply N.eqb_eq in Q. subst x.
    vm_compute in I. repeat destruct I as [<-|I]; try reflexivity. destruct I.
  - right. split; [reflexivity|].
    assert (Z : forall x, In x re_specials -> (c =? x)%N = false).
    { intros x I. destruct (c =? x)%N eqn:Q; [|reflexivity]. assert (T : existsb (N.eqb c) re_specials = true) by (apply existsb_exists; exists x; split; assumption). congruence. }
    repeat (split; [apply Z; vm_compute; tauto|]). unfold meta. destruct (existsb (N.eqb c) (u ".^$*?+{}[]|()")) eqn:M; [|reflexivity].
    apply existsb_exists in M as (x & I & Q). rewrite Z in Q; [discriminate Q|]. vm_compute in I |- *. tauto.
Qed.
Lemma read_word s : forall cur r, read_alts cur (re_escape s ++ r) = read_alts (cur ++ map N.eqb s) r.
Proof.
  induction s as [|c s IH]; intros cur r; [cbn [re_escape flat_map map app]; rewrite app_nil_r; reflexivity|].
  unfold re_escape in *. cbn [flat_map map]. rewrite <- app_assoc.
  destruct (special_cases c) as [(-> & Q)|(-> & A & B & C & D)]; cbn [app read_alts].
  - change (92 =? 92)%N with true. cbv iota. rewrite Q, IH, <- app_assoc. reflexivity.
  - rewrite A, B, C, D, IH, <- app_assoc. reflexivity.
Qed.
Lemma read_single c : read_alts [] (esc c) = Some [[N.eqb c]].
Proof.
  destruct (esc_cases c) as [(-> & ->)|[(-> & ->)|[(-> & ->)|[(-> & I)|(-> & I)]]]]; try reflexivity.
  - cbn [read_alts]. change (92 =? 92)%N with true. cbv iota.
    assert (Q : escaped c = Some c) by (vm_compute in I; repeat destruct I as [<-|I]; try reflexivity; destruct I). rewrite Q. reflexivity.
  - assert (Z : forall x, In x specials -> (c =? x)%N = false) by (intros x J; apply N.eqb_neq; intros ->; exact (I J)).
    cbn [read_alts]. rewrite (Z 92%N), (Z 124%N), (Z 91%N) by (vm_compute; tauto).
    assert (M : meta c = false).
    { unfold meta. destruct (existsb (N.eqb c) (u ".^$*?+{}[]|()")) eqn:M; [|reflexivity].
      apply existsb_exists in M as (x & J & Q). rewrite Z in Q; [discriminate Q|]. vm_compute in J |- *. tauto. }
    rewrite M. reflexivity.
Qed.
(** The alternative of the single characters. *)
Lemma read_class s : s <> [] -> (length s = 1 \/ (In 6%N s -> exists c, In c s /\ (6 < c)%N)) ->
  exists f, read_alts [] (regex_range s false) = Some [[f]] /\ forall c, f c = existsb (N.eqb c) s.
Proof.
  intros Ne H. destruct s as [|c [|d s]]; [destruct (Ne eq_refl) | |].
  - exists (N.eqb c). split; [exact (read_single c)|]. intros x. cbn [existsb]. rewrite orb_false_r. apply N.eqb_sym.
  - destruct H as [H|H]; [discriminate H|]. destruct (set_class (c :: d :: s) false Ne H) as (f & R & F). exists f. split; [|intros x; rewrite F; destruct (existsb _ _); reflexivity].
    cbn [regex_range]. change (u "[") with [91%N] in R |- *. cbn [app] in R |- *.
    cbn [read_alts]. change (91 =? 92)%N with false. change (91 =? 124)%N with false. change (91 =? 91)%N with true. cbv iota.
    rewrite R. reflexivity.
Qed.
Lemma read_join words last alts : read_alts [] last = Some alts ->
  read_alts [] (join (u "|") (map re_escape words ++ [last])) = Some (map (map N.eqb) words ++ alts).
Proof.
  intros H. induction words as [|w words IH]; [exact H|].
  cbn [map app]. assert (J : exists x r, map re_escape words ++ [last] = x :: r) by (destruct words; [exists last, [] | eexists _, _]; reflexivity).
  destruct J as (x & r & J). rewrite J in IH |- *. change (join (u "|") (re_escape w :: x :: r)) with (re_escape w ++ u "|" ++ join (u "|") (x :: r)).
  rewrite read_word. change (u "|") with [124%N] at 1. cbn [app]. cbn [read_alts]. change (124 =? 92)%N with false. change (124 =? 124)%N with true. cbv iota.
  rewrite IH. reflexivity.
Qed.
Lemma read_words words : words <> [] -> read_alts [] (join (u "|") (map re_escape words)) = Some (map (map N.eqb) words).
Proof.
  intros H. destruct (exists_last H) as (w & a & ->). rewrite !map_app. apply (read_join w (re_escape a) [map N.eqb a]).
  pose proof (read_word a [] []) as R. rewrite app_nil_r in R. exact R.
Qed.

(** ** Running the pattern *)
Lemma takes_word s : forall t, takes (map N.eqb s) t = startswith t s.
Proof. induction s as [|c s IH]; intros [|d t]; cbn [map takes startswith]; try reflexivity. rewrite IH. reflexivity. Qed.
Lemma begins_eq s t : startswith t s = true <-> begins_with eq s t.
Proof.
  rewrite starts_iff. unfold begins_with. split.
  - intros (r & ->). exists s, r. split; [reflexivity|]. induction s; constructor; [reflexivity | assumption].
  - intros (p & r & -> & F). exists r. f_equal. induction F; congruence.
Qed.
Lemma find_longest (p : pystr -> bool) l : ForallOrdPairs (fun a b => p a = true -> p b = true -> length b <= length a) l ->
  forall x, find p l = Some x -> forall y, In y l -> p y = true -> length y <= length x.
Proof.
  induction 1 as [|a l F P IH]; intros x; cbn [find]; [discriminate|]. destruct (p a) eqn:A.
  - intros [= <-] y [<-|I] Y; [lia|]. rewrite Forall_forall in F. exact (F y I eq_refl Y).
  - intros E y [<-|I] Y; [congruence | exact (IH x E y I Y)].
Qed.
Lemma put_in s l x : In x (put s l) <-> x = s \/ In x l.
Proof.
  induction l as [|t r IH]; cbn [put]; [cbn [In]; intuition congruence|].
  destruct (Nat.leb _ _); cbn [In]; [intuition congruence | rewrite IH; intuition congruence].
Qed.
Lemma longest_first_in l x : In x (longest_first l) <-> In x l.
Proof. induction l as [|s l IH]; [reflexivity|]. cbn [longest_first fold_right]. rewrite put_in. fold (longest_first l). rewrite IH. cbn [In]. intuition congruence. Qed.
Lemma put_sorted s l : ForallOrdPairs (fun a b : pystr => length b <= length a) l -> ForallOrdPairs (fun a b : pystr => length b <= length a) (put s l).
Proof.
  induction 1 as [|t r F P IH]; cbn [put]; [repeat constructor|]. destruct (Nat.leb_spec (length t) (length s)) as [L|L].
  - constructor; [|constructor; assumption]. constructor; [exact L|]. rewrite Forall_forall in *. intros x I. specialize (F x I). lia.
  - constructor; [|exact IH]. apply Forall_forall. intros x I. apply put_in in I as [->|I]; [lia|]. rewrite Forall_forall in F. exact (F x I).
Qed.
Lemma longest_first_sorted l : ForallOrdPairs (fun a b : pystr => length b <= length a) (longest_first l).
Proof. induction l as [|s l IH]; [constructor | apply put_sorted; exact IH]. Qed.

Lemma concat_single l : (forall s, In s l -> single s = true) -> forall c, In c (concat l) <-> In [c] l.
Proof.
  intros H c. induction l as [|s l IH]; [reflexivity|]. cbn [concat]. rewrite in_app_iff, IH by (intros x I; apply H; right; exact I).
  pose proof (H s (or_introl eq_refl)) as S. destruct s as [|d [|e s]]; try discriminate S. cbn [In]. intuition congruence.
Qed.
(** What the pattern does: the first of the longer symbols, else a single character. *)
Definition chosen (symbols : list pystr) (t : pystr) : option nat :=
  match find (fun s => startswith t s) (longest_first (filter (fun s => negb (single s)) symbols)) with
  | Some s => Some (length s)
  | None => match t with c :: _ => if existsb (seqb [c]) symbols then Some 1 else None | [] => None end
  end.
Lemma run_words words t : run (map (map N.eqb) words) t = option_map (@length N) (find (fun s => startswith t s) words).
Proof.
  unfold run. induction words as [|w words IH]; [reflexivity|]. cbn [map find]. rewrite takes_word. destruct (startswith t w); [|exact IH].
  cbn [option_map]. rewrite map_length. reflexivity.
Qed.
Lemma run_app a b t : run (a ++ b) t = match run a t with Some n => Some n | None => run b t end.
Proof. unfold run. induction a as [|x a IH]; [reflexivity|]. cbn [app find]. destruct (takes x t); [reflexivity | exact IH]. Qed.
Lemma in_smem c (l : list pystr) : existsb (seqb [c]) l = true <-> In [c] l.
Proof.
  rewrite existsb_exists. split; [intros (x & I & E); apply seqb_eq in E; subst; exact I | intros I; exists [c]; split; [exact I | apply seqb_refl]].
Qed.
Lemma pattern_ok symbols : symbols <> [] -> (In [6%N] symbols -> exists c, In [c] symbols /\ (6 < c)%N) ->
  exists alts, read_alts [] (pattern symbols) = Some alts /\ forall t, run alts t = chosen symbols t.
Proof.
  intros Ne H. unfold pattern, chosen. set (rest := longest_first (filter (fun s => negb (single s)) symbols)).
  assert (In1 : forall c, In c (concat (filter single symbols)) <-> In [c] symbols).
  { intros c. rewrite concat_single by (intros s I; apply filter_In in I as (_ & I); exact I). rewrite filter_In. intuition. }
  destruct (filter single symbols) as [|s0 ss] eqn:Fs.
  - rewrite app_nil_r. assert (R : rest <> []).
    { destruct symbols as [|s r]; [destruct (Ne eq_refl)|]. intros E. assert (I : In s rest).
      { unfold rest. apply longest_first_in. apply filter_In. split; [left; reflexivity|]. cbn [filter] in Fs. destruct (single s); [discriminate Fs | reflexivity]. }
      rewrite E in I. destruct I. }
    exists (map (map N.eqb) rest). split; [exact (read_words rest R)|]. intros t. rewrite run_words. destruct (find _ rest); [reflexivity|]. cbn [option_map].
    destruct t as [|c t]; [reflexivity|]. destruct (existsb (seqb [c]) symbols) eqn:E; [|reflexivity]. apply in_smem in E. apply In1 in E. destruct E.
  - assert (Nc : concat (s0 :: ss) <> []).
    { assert (S : single s0 = true) by (assert (I : In s0 (filter single symbols)) by (rewrite Fs; left; reflexivity); apply filter_In in I as (_ & I); exact I).
      destruct s0 as [|c s0]; [discriminate S | discriminate]. }
    destruct (read_class (concat (s0 :: ss)) Nc) as (f & R & F).
    { right. intros I. apply In1 in I. destruct (H I) as (c & J & L). exists c. split; [apply In1; exact J | exact L]. }
    exists (map (map N.eqb) rest ++ [[f]]). split; [exact (read_join rest _ _ R)|].
    intros t. rewrite run_app, run_words. destruct (find _ rest); [reflexivity|]. cbn [option_map]. unfold run. cbn [find takes].
    destruct t as [|c t]; [reflexivity|]. cbn [takes]. rewrite F, andb_true_r.
    assert (Q : existsb (N.eqb c) (concat (s0 :: ss)) = existsb (seqb [c]) symbols).
    { apply bool_iff. rewrite in_existsb, in_smem. apply In1. }
    rewrite Q. destruct (existsb (seqb [c]) symbols); reflexivity.
Qed.

Lemma starts_nil t : startswith t [] = true.
Proof. destruct t; reflexivity. Qed.
Lemma starts_single c d t : startswith (d :: t) [c] = (c =? d)%N.
Proof. cbn [startswith]. rewrite starts_nil. apply andb_true_r. Qed.
Lemma chosen_longest symbols t : ~ In [] symbols -> longest eq symbols t (chosen symbols t).
Proof.
  intros Ne. unfold chosen. set (rest := longest_first (filter (fun s => negb (single s)) symbols)).
  assert (R : forall s, In s rest <-> In s symbols /\ single s = false).
  { intros s. unfold rest. rewrite longest_first_in, filter_In, negb_true_iff. reflexivity. }
  assert (S : forall s, single s = true -> exists c, s = [c]) by (intros [|c [|d s]] E; try discriminate E; exists c; reflexivity).
  destruct (find (fun s => startswith t s) rest) as [x|] eqn:E.
  - pose proof (find_some _ _ E) as (I & B). apply R in I as (I & Sx). split.
    + exists x. split; [exact I|]. split; [reflexivity | apply begins_eq; exact B].
    + intros s J Bs. apply begins_eq in Bs. destruct (single s) eqn:Ss.
      * apply S in Ss as (c & ->). destruct x as [|a [|b x]]; [destruct (Ne I) | discriminate Sx | cbn [length]; lia].
      * apply (find_longest (fun s => startswith t s) rest) with (x := x); [|exact E | apply R; split; assumption | exact Bs].
        pose proof (longest_first_sorted (filter (fun s => negb (single s)) symbols)) as P. fold rest in P. revert P. clear. induction 1 as [|a l F P IH]; constructor; [|exact IH].
        rewrite Forall_forall in *. intros y I _ _. exact (F y I).
  - assert (No : forall s, In s symbols -> single s = false -> startswith t s = false).
    { intros s I Ss. exact (find_none _ _ E s (proj2 (R s) (conj I Ss))). }
    assert (One : forall s, In s symbols -> begins_with eq s t -> exists c r, s = [c] /\ t = c :: r).
    { intros s I B. apply begins_eq in B. destruct (single s) eqn:Ss; [|rewrite (No s I Ss) in B; discriminate B]. apply S in Ss as (c & ->).
      apply starts_iff in B as (r & ->). exists c, r. split; reflexivity. }
    destruct t as [|c t]; [intros s I B; destruct (One s I B) as (d & r & _ & X); discriminate X|].
    destruct (existsb (seqb [c]) symbols) eqn:X.
    + apply in_smem in X. split.
      * exists [c]. split; [exact X|]. split; [reflexivity|]. apply begins_eq. rewrite starts_single. apply N.eqb_refl.
      * intros s I B. destruct (One s I B) as (d & r & -> & _). cbn [length]. lia.
    + intros s I B. destruct (One s I B) as (d & r & -> & Q). injection Q as <- _. apply in_smem in I. congruence.
Qed.

(** ** Either case *)
Lemma same_iff c d : (N.eqb d (lower1 c) || N.eqb d (upper1 c)) = true <-> same_letter c d.
Proof.
  unfold same_letter, lower1, upper1. rewrite orb_true_iff, !N.eqb_eq.
  destruct (N.leb_spec 65 c), (N.leb_spec c 90), (N.leb_spec 97 c), (N.leb_spec c 122); cbn [andb]; split; intros X;
    try (destruct X as [X|X]; subst; try (left; lia); right; first [exists (c - 65)%N; lia | exists (c - 97)%N; lia]);
    try (destruct X as [X|(k & K & X)]; lia).
Qed.
Lemma same_upper c d : same_letter c d -> upper1 c = upper1 d.
Proof.
  intros [->|(k & K & X)]; [reflexivity|]. unfold upper1.
  destruct (N.leb_spec 97 c), (N.leb_spec c 122), (N.leb_spec 97 d), (N.leb_spec d 122); cbn [andb]; lia.
Qed.
Lemma literal_iff s : forall t, literal s t = true <-> begins_with same_letter s t.
Proof.
  unfold begins_with. induction s as [|c s IH]; intros t.
  - split; [intros _; exists [], t; split; [reflexivity | constructor] | destruct t; reflexivity].
  - destruct t as [|d t]; cbn [literal].
    + split; [discriminate|]. intros (p & r & E & F). inversion F; subst. discriminate E.
    + rewrite andb_true_iff, same_iff, IH. split.
      * intros (X & p & r & -> & F). exists (d :: p), r. split; [reflexivity | constructor; assumption].
      * intros (p & r & E & F). inversion F as [|? d' ? p' X F']; subst. injection E as -> ->. split; [exact X | exists p', r; split; [reflexivity | exact F']].
Qed.
Lemma key_length cl s : length (key cl s) = length s.
Proof. destruct cl; [apply map_length | reflexivity]. Qed.
Lemma literal_key s t : literal s t = true -> startswith (map upper1 t) (map upper1 s) = true.
Proof.
  intros H. apply literal_iff in H as (p & r & -> & F). apply starts_iff. exists (map upper1 r). rewrite map_app. f_equal.
  induction F as [|c d s p X F IH]; [reflexivity|]. cbn [map]. rewrite (same_upper c d X), IH. reflexivity.
Qed.
Lemma prefix_order a : forall b t, startswith t a = true -> startswith t b = true -> length a <= length b -> startswith b a = true.
Proof.
  induction a as [|c a IH]; intros b t A B L; [apply starts_nil|]. destruct t as [|d t]; [discriminate A|]. destruct b as [|e b]; [cbn in L; lia|].
  cbn [startswith length] in *. apply andb_true_iff in A as (A1 & A2), B as (B1 & B2). apply N.eqb_eq in A1, B1. subst. rewrite N.eqb_refl. cbn [andb].
  apply (IH b t A2 B2). lia.
Qed.
Lemma clear_order t l : clear true l -> ForallOrdPairs (fun a b => literal a t = true -> literal b t = true -> length b <= length a) l.
Proof.
  induction 1 as [|a l F P IH]; constructor; [|exact IH]. rewrite Forall_forall in *. intros b I A B. specialize (F b I).
  destruct (le_gt_dec (length b) (length a)) as [L|L]; [exact L|]. unfold masks, key in F.
  rewrite (prefix_order (map upper1 a) (map upper1 b) (map upper1 t)) in F; [discriminate F | apply literal_key; exact A | apply literal_key; exact B | rewrite !map_length; lia].
Qed.
Lemma upper_same s s' : map upper1 s = map upper1 s' -> forall t, literal s t = literal s' t.
Proof.
  revert s'. induction s as [|c s IH]; intros [|c' s'] E [|d t]; try discriminate E; try reflexivity. cbn [map] in E. injection E as E1 E2. cbn [literal].
  rewrite (IH s' E2). f_equal. apply bool_iff. rewrite !same_iff. revert E1. unfold same_letter, upper1.
  destruct (N.leb_spec 97 c), (N.leb_spec c 122), (N.leb_spec 97 c'), (N.leb_spec c' 122); cbn [andb]; intros E1; split; intros [X|(k & K & X)];
    first [left; lia | right; exists k; lia | right; exists (d - 65)%N; lia | right; exists (d - 97)%N; lia].
Qed.
Lemma caseless_longest symbols t : exists found, one_of_caseless symbols t = Some found /\ longest same_letter symbols t found.
Proof.
  destruct (ordered_ok true symbols) as (l & O & C & A & B). unfold one_of_caseless. rewrite O. eexists. split; [reflexivity|].
  assert (K : forall s, In s symbols -> exists s', In s' l /\ length s' = length s /\ literal s t = literal s' t).
  { intros s I. destruct (B s I) as (s' & I' & E). exists s'. split; [exact I'|]. split; [rewrite <- (key_length true s'), E; apply key_length | symmetry; apply upper_same; exact E]. }
  destruct (find (fun s => literal s t) l) as [x|] eqn:E; cbn [option_map longest].
  - pose proof (find_some _ _ E) as (I & X). split; [exists x; split; [exact (A x I)|]; split; [reflexivity | apply literal_iff; exact X]|].
    intros s J Bs. apply literal_iff in Bs. destruct (K s J) as (s' & J' & L & Q). rewrite <- L.
    apply (find_longest (fun s => literal s t) l (clear_order t l C) x E s' J'). congruence.
  - intros s J Bs. apply literal_iff in Bs. destruct (K s J) as (s' & J' & L & Q). pose proof (find_none _ _ E s' J') as Z. cbn beta in Z. congruence.
Qed.
Lemma plain_longest symbols : symbols <> [] -> ~ In [] symbols -> (In [6%N] symbols -> exists c, In [c] symbols /\ (6 < c)%N) ->
  exists p alts, one_of symbols = Some p /\ read_alts [] p = Some alts /\ forall t, longest eq symbols t (run alts t).
Proof.
  intros Ne Em H. destruct (ordered_ok false symbols) as (l & O & C & A & B).
  assert (K : forall s, In s l <-> In s symbols) by (intros s; split; [apply A | intros I; destruct (B s I) as (s' & I' & E); cbn [key] in E; subst; exact I']).
  destruct (pattern_ok l) as (alts & R & F).
  - destruct symbols as [|s r]; [destruct (Ne eq_refl)|]. intros ->. apply (K s). left. reflexivity.
  - intros I. destruct (H (proj1 (K _) I)) as (c & J & L). exists c. split; [apply K; exact J | exact L].
  - exists (pattern l), alts. split; [unfold one_of; rewrite O; reflexivity|]. split; [exact R|]. intros t. rewrite F.
    assert (X : longest eq l t (chosen l t)) by (apply chosen_longest; intros I; exact (Em (proj1 (K _) I))).
    destruct (chosen l t) as [n|]; cbn [longest] in *.
    + destruct X as ((s & I & Ls & Bs) & M). split; [exists s; split; [apply K; exact I | split; assumption] | intros s' I' B'; apply M; [apply K; exact I' | exact B']].
    + intros s I. apply X, K, I.
Qed.
Lemma plain_empty symbols : In [] symbols -> (In [6%N] symbols -> exists c, In [c] symbols /\ (6 < c)%N) ->
  exists p alts, one_of symbols = Some p /\ read_alts [] p = Some alts /\
    forall t, (forall s, In s symbols -> begins_with eq s t -> length s < 2) -> run alts t = Some 0.
Proof.
  intros Em H. destruct (ordered_ok false symbols) as (l & O & C & A & B).
  assert (K : forall s, In s l <-> In s symbols) by (intros s; split; [apply A | intros I; destruct (B s I) as (s' & I' & E); cbn [key] in E; subst; exact I']).
  destruct (pattern_ok l) as (alts & R & F).
  - intros ->. apply (K []). exact Em.
  - intros I. destruct (H (proj1 (K _) I)) as (c & J & L). exists c. split; [apply K; exact J | exact L].
  - exists (pattern l), alts. split; [unfold one_of; rewrite O; reflexivity|]. split; [exact R|]. intros t Sh. rewrite F. unfold chosen.
    destruct (find (fun s => startswith t s) (longest_first (filter (fun s => negb (single s)) l))) as [x|] eqn:E.
    + apply find_some in E as (I & X). apply longest_first_in, filter_In in I as (I & S). apply K in I. apply begins_eq in X. specialize (Sh x I X).
      destruct x as [|a [|b x]]; [reflexivity | discriminate S | cbn [length] in Sh; lia].
    + assert (Z : startswith t [] = false) by (apply (find_none _ _ E []); apply longest_first_in, filter_In; split; [apply K; exact Em | reflexivity]).
      rewrite starts_nil in Z. discriminate Z.
Qed.

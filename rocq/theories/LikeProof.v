(** LIKE with several parts: where the parts stand in the value. *)
From Coq Require Import String Ascii List NArith ZArith Bool Arith Lia.
From Verif Require Import Base BaseProof CryptoModel CryptoSpec CryptoProof FuzzyModel LikeSpec FuzzyProof.
Import ListNotations.

(** ** Matching and positions, for any kind of character *)
Section G.
Context {A : Type}.
Implicit Types (p s t a b : list A) (ps qs : list (list A)).

Lemma tmatch_mono ps a s : tmatch ps s -> tmatch ps (a ++ s).
Proof.
  destruct ps as [|p [|q qs]]; cbn [tmatch]; [trivial| |].
  - intros [x ->]. exists (a ++ x). apply app_assoc.
  - intros (x & y & -> & T). exists (a ++ x), y. split; [apply app_assoc|exact T].
Qed.
Lemma skipn_le_app n a b : n <= length a -> skipn n (a ++ b) = skipn n a ++ b.
Proof. intros L. rewrite skipn_app. replace (n - length a) with 0 by lia. reflexivity. Qed.
Lemma skipn_all_app a b : skipn (length a) (a ++ b) = b.
Proof. rewrite skipn_app, skipn_all, Nat.sub_diag. reflexivity. Qed.
Lemma stands_end i p s : stands i p s -> i + length p <= length s.
Proof. intros (a & b & -> & <-). rewrite !app_length. lia. Qed.
Lemma tmatch_laid ps s : forall lo, lo <= length s -> (tmatch ps (skipn lo s) <-> laid 0 lo ps s).
Proof.
  induction ps as [|p qs IH]; intros lo L; [reflexivity|]. cbn [laid].
  assert (S : forall a b, skipn lo s = a ++ p ++ b -> stands (lo + length a) p s /\ (b = skipn (lo + length a + length p) s)).
  { intros a b E. assert (F : s = (firstn lo s ++ a) ++ p ++ b) by (rewrite <- app_assoc, <- E; symmetry; apply firstn_skipn).
    assert (LF : length (firstn lo s ++ a) = lo + length a) by (rewrite app_length, firstn_length; lia).
    split; [exists (firstn lo s ++ a), b; split; [exact F|exact LF]|].
    rewrite F at 1. rewrite app_assoc. replace (lo + length a + length p) with (length ((firstn lo s ++ a) ++ p)) by (rewrite app_length, LF; reflexivity).
    symmetry. apply skipn_all_app. }
  assert (W : forall i, lo <= i + 0 -> stands i p s -> exists a, skipn lo s = a ++ p ++ skipn (i + length p) s).
  { intros i Hi (a & b & E & <-). exists (skipn lo a). rewrite E at 1. rewrite skipn_le_app by lia. do 2 f_equal.
    rewrite E, app_assoc. replace (length a + length p) with (length (a ++ p)) by apply app_length. symmetry. apply skipn_all_app. }
  destruct qs as [|q qs].
  - cbn [tmatch laid]. split.
    + intros [a E]. destruct p as [|x p]; [left; auto|right]. split; [discriminate|].
      destruct (S a [] ltac:(now rewrite app_nil_r)) as [H1 H2]. exists (lo + length a). split; [lia|]. split; [exact H1|].
      apply (f_equal (@length A)) in H2. cbn [length] in H2. rewrite skipn_length in H2. pose proof (stands_end _ _ _ H1). cbn [length] in *. lia.
    + intros [[-> _]|(NE & i & Hi & H & E)]; [exists (skipn lo s); now rewrite app_nil_r|].
      destruct (W i Hi H) as [a Ea]. exists a. rewrite Ea, E, skipn_all, app_nil_r. reflexivity.
  - change (tmatch (p :: q :: qs) (skipn lo s)) with (exists a b, skipn lo s = a ++ p ++ b /\ tmatch (q :: qs) b). split.
    + intros (a & b & E & T). destruct p as [|x p].
      * left. split; [reflexivity|]. apply IH; [exact L|]. rewrite E. apply tmatch_mono. exact T.
      * right. split; [discriminate|]. destruct (S a b E) as [H1 H2]. exists (lo + length a). split; [lia|]. split; [exact H1|].
        apply IH; [now apply stands_end|]. now rewrite <- H2.
    + intros [[-> H]|(NE & i & Hi & H & T)].
      * exists [], (skipn lo s). split; [reflexivity|]. now apply IH.
      * destruct (W i Hi H) as [a Ea]. exists a, (skipn (i + length p) s). split; [exact Ea|]. apply IH; [now apply stands_end|exact T].
Qed.
Lemma pmatch_laid ps s : ps <> [] -> (pmatch ps s <-> laid_out 0 ps s).
Proof.
  intros NE. destruct ps as [|p [|q qs]]; [contradiction|reflexivity|].
  change (pmatch (p :: q :: qs) s) with (exists s', s = p ++ s' /\ tmatch (q :: qs) s').
  change (laid_out 0 (p :: q :: qs) s) with (stands 0 p s /\ laid 0 (length p) (q :: qs) s). split.
  - intros (s' & E & T). assert (H : stands 0 p s) by (exists [], s'; auto). split; [exact H|].
    apply tmatch_laid; [now apply (stands_end 0 p s)|]. now rewrite E, skipn_all_app.
  - intros [H T]. pose proof (stands_end _ _ _ H) as L. destruct H as (a & b & E & La). destruct a; [|discriminate]. cbn [app] in E. exists b. split; [exact E|].
    apply tmatch_laid in T; [|exact L]. now rewrite E, skipn_all_app in T.
Qed.

(** ** Overlap *)
Lemma laid_mono o o' lo ps s : o <= o' -> laid o lo ps s -> laid o' lo ps s.
Proof.
  intros L. revert lo. induction ps as [|p qs IH]; intros lo; [trivial|]. cbn [laid]. intros [[-> H]|(NE & i & Hi & H & T)]; [left; auto|right].
  split; [exact NE|]. exists i. split; [lia|]. split; [exact H|]. destruct qs; [exact T|]. now apply IH.
Qed.
Lemma overlap i j p q s : stands i p s -> stands j q s -> j < i + length p -> i <= j -> i + length p <= j + length q ->
  exists x a b, p = a ++ x /\ q = x ++ b /\ x <> [] /\ length x = i + length p - j.
Proof.
  intros (a & b & E & <-) (c & d & E' & <-) L1 L2 L3. rewrite E' in E. clear E' s.
  assert (N : forall (y z y' z' : list A), y ++ z = y' ++ z' -> length y <= length y' -> exists m, y' = y ++ m /\ z = m ++ z').
  { clear. induction y as [|v y IH]; intros z y' z' E L; [exists y'; auto|]. destruct y' as [|v' y']; [cbn in L; lia|]. injection E as -> E.
    destruct (IH z y' z' E ltac:(cbn in L; lia)) as (m & -> & ->). exists m. auto. }
  destruct (N a (p ++ b) c (q ++ d) ltac:(symmetry; exact E) L2) as (m & -> & E1). rewrite app_length in L1, L3.
  destruct (N m (q ++ d) p b ltac:(symmetry; exact E1) ltac:(lia)) as (x & -> & E2). rewrite app_length in L1, L3.
  destruct (N x b q d ltac:(symmetry; exact E2) ltac:(lia)) as (y & -> & _). exists x, m, y. split; [reflexivity|]. split; [reflexivity|].
  split; [intros ->; cbn in L1; lia|]. rewrite !app_length. lia.
Qed.
(** The part before: it ends at [lo]. *)
Definition before (lo : nat) (prev : option (list A)) s : Prop :=
  match prev with Some p => exists i, stands i p s /\ i + length p = lo | None => lo = 0 end.
Lemma laid_apart o ps s : forall lo prev, (forall p, In p ps -> p = [] \/ o < length p) ->
  (match prev with Some p => o < length p | None => True end) -> before lo prev s ->
  all_apart o ((match prev with Some p => [p] | None => [] end) ++ filter nonempty ps) ->
  laid o lo ps s -> laid 0 lo ps s.
Proof.
  induction ps as [|p qs IH]; intros lo prev HP HL B AP; [trivial|]. cbn [laid]. intros [[-> H]|(NE & i & Hi & H & T)].
  - left. split; [reflexivity|]. apply (IH lo prev); auto. intros x I. apply HP. now right.
  - right. split; [exact NE|]. exists i. destruct (HP p (or_introl eq_refl)) as [->|LP]; [contradiction|].
    assert (F : filter nonempty (p :: qs) = p :: filter nonempty qs) by (destruct p; [contradiction|reflexivity]). rewrite F in AP.
    assert (X : lo <= i + 0).
    { destruct (Nat.le_gt_cases lo i) as [Y|Y]; [lia|exfalso]. destruct prev as [pr|]; [|cbn in B; lia]. destruct B as (j & Sj & Ej).
      destruct (overlap j i pr p s Sj H ltac:(lia) ltac:(lia) ltac:(lia)) as (x & a & b & E1 & E2 & NX & LX). cbn [app all_apart] in AP. destruct AP as [AP _].
      apply NX. apply (AP x a b E1 E2). lia. }
    split; [exact X|]. split; [exact H|]. destruct qs as [|q qs]; [exact T|].
    apply (IH (i + length p) (Some p)); auto.
    + intros x I. apply HP. now right.
    + exists i. auto.
    + destruct prev as [pr|]; [|exact AP]. cbn [app all_apart] in AP. destruct AP as [_ AP]. exact AP.
Qed.
Lemma laid_out_apart o ps s : (forall p, In p ps -> p = [] \/ o < length p) -> all_apart o (filter nonempty ps) ->
  (laid_out o ps s <-> laid_out 0 ps s).
Proof.
  intros HP AP. destruct ps as [|p [|q qs]]; [reflexivity..|].
  change (laid_out o (p :: q :: qs) s) with (stands 0 p s /\ laid o (length p) (q :: qs) s).
  change (laid_out 0 (p :: q :: qs) s) with (stands 0 p s /\ laid 0 (length p) (q :: qs) s).
  split; (intros [H T]; split; [exact H|]); [|revert T; apply laid_mono; lia].
  destruct (HP p (or_introl eq_refl)) as [->|LP].
  - apply (laid_apart o (q :: qs) s 0 None); auto; [intros x I; apply HP; now right|reflexivity].
  - apply (laid_apart o (q :: qs) s (length p) (Some p)); auto.
    + intros x I. apply HP. now right.
    + exists 0. auto.
    + destruct p as [|x p]; [cbn in LP; lia|exact AP].
Qed.
End G.

(** ** Ciphertexts *)
Section F.
Context (alnum : N -> bool) (P : prim) (HP : prim_ok P) (key : pystr).
Local Notation encw := (encw P key).
Local Notation encpart := (encpart P key).

Lemma encpart_length k p : 0 < k <= 3 -> forallb scalar p = true -> 3 <= length p -> length (encpart k p) = 24 * (length p + 1 - k).
Proof.
  intros Hk T L. unfold FuzzyProof.encpart. rewrite <- (windows_length k p) by lia. rewrite <- (windows_toks alnum k p) by lia.
  assert (G : forall w, In w (toks k p) -> length (encw w) = 24).
  { intros w I. apply good_length. apply (toks_good alnum P HP key k p); [lia|exact T|now apply in_map]. }
  induction (toks k p) as [|w W IH]; [reflexivity|]. cbn [map concat length]. rewrite app_length, (G w (or_introl eq_refl)), IH by (intros x I; apply G; now right). lia.
Qed.
Lemma stands_enc k p v j : 0 < k <= 3 -> forallb textc p = true -> forallb scalar v = true -> 3 <= length p ->
  (stands j (encpart k p) (encpart k v) <-> exists i, j = 24 * i /\ stands i p v).
Proof.
  intros Hk Tp Tv L. split.
  - intros (a & b & E & <-). destruct (cipher_occurrence alnum P HP key k v p a b Hk Tv Tp L E) as (W1 & W2 & ET & La & _).
    destruct (toks_sub_inv alnum k v p W1 W2 Hk L ET) as (x & y & Ev & Lx & _). exists (length W1). split; [exact La|]. exists x, y. split; [exact Ev|lia].
  - intros (i & -> & x & y & Ev & <-). assert (Lv : 3 <= length v) by (rewrite Ev, !app_length; lia).
    destruct (windows_suffix_len k x (p ++ y) ltac:(lia)) as (X & EX & LX). destruct (windows_prefix k p y) as (Y & EY).
    unfold FuzzyProof.encpart. rewrite (windows_toks alnum k v), (windows_toks alnum k p) by lia. rewrite Ev, EX, EY, !map_app, !concat_app.
    exists (concat (map encw X)), (concat (map encw Y)). split; [reflexivity|]. specialize (LX ltac:(rewrite app_length; lia)). rewrite <- LX.
    assert (G : forall w, In w X -> length (encw w) = 24).
    { intros w I. apply good_length. apply (toks_good alnum P HP key k v); [lia|exact Tv|]. apply in_map. rewrite (windows_toks alnum k v) by lia. rewrite Ev, EX. apply in_app_iff. now left. }
    clear -G. induction X as [|w W IH]; [reflexivity|]. cbn [map concat length]. rewrite app_length, (G w (or_introl eq_refl)), IH by (intros z I; apply G; now right). lia.
Qed.
Lemma encpart_nonempty k p : 0 < k <= 3 -> forallb textc p = true -> 3 <= length p -> encpart k p <> [].
Proof. intros Hk T L E. apply (f_equal (@length N)) in E. rewrite encpart_length in E by (try apply text_scalar; assumption). cbn in E. lia. Qed.
Lemma laid_enc k ps v : 0 < k <= 3 -> forallb scalar v = true -> (forall p, In p ps -> p = [] \/ (3 <= length p /\ forallb textc p = true)) ->
  forall lo, (laid 0 (24 * (lo + 1 - k)) (map (encpart k) ps) (encpart k v) <-> laid (k - 1) lo ps v).
Proof.
  intros Hk Tv. induction ps as [|p qs IH]; intros Hp lo; [reflexivity|]. cbn [map laid].
  assert (Hq : forall p0, In p0 qs -> p0 = [] \/ (3 <= length p0 /\ forallb textc p0 = true)) by (intros p0 I; apply Hp; now right).
  destruct (Hp p (or_introl eq_refl)) as [->|[L T]].
  - split; (intros [[_ H]|[NE _]]; [left; split; [reflexivity|now apply IH]|exfalso; now apply NE]).
  - pose proof (encpart_nonempty k p Hk T L) as NE. assert (NP : p <> []) by (intros ->; cbn in L; lia).
    split; (intros [[E _]|(_ & H)]; [contradiction|]; right; split; [assumption|]).
    + destruct H as (j & Hj & S & R). apply (stands_enc k p v j Hk T Tv L) in S. destruct S as (i & -> & S). exists i. split; [lia|]. split; [exact S|].
      rewrite (encpart_length k p Hk (text_scalar p T) L) in R. pose proof (stands_end _ _ _ S) as SE. destruct qs as [|q qs].
      * cbn [map] in R. rewrite (encpart_length k v Hk Tv) in R by lia. lia.
      * apply (IH Hq). replace (24 * (i + length p + 1 - k)) with (24 * i + 24 * (length p + 1 - k)) by lia. exact R.
    + destruct H as (i & Hi & S & R). exists (24 * i). split; [lia|]. split; [apply (stands_enc k p v _ Hk T Tv L); exists i; auto|].
      rewrite (encpart_length k p Hk (text_scalar p T) L). pose proof (stands_end _ _ _ S) as SE. destruct qs as [|q qs].
      * cbn [map]. rewrite (encpart_length k v Hk Tv) by lia. lia.
      * apply (IH Hq) in R. replace (24 * (i + length p + 1 - k)) with (24 * i + 24 * (length p + 1 - k)) in R by lia. exact R.
Qed.
Lemma encpart_inj k p v : 0 < k <= 3 -> forallb textc p = true -> forallb scalar v = true -> p = [] \/ 3 <= length p -> (encpart k v = encpart k p <-> v = p).
Proof.
  intros Hk Tp Tv [->|L]; (split; [|now intros ->]); intros E.
  - destruct v as [|x v]; [reflexivity|exfalso]. assert (I : exists w, In w (toks k (x :: v))).
    { rewrite toks_nonnil by discriminate. destruct (Nat.ltb_spec (length (x :: v)) k); [eexists; now left|]. rewrite windows_cons by (cbn [length] in *; lia). eexists. now left. }
    destruct I as [w I]. assert (L : length (encw w) = 24) by (apply good_length, (toks_good alnum P HP key k (x :: v)); [lia|exact Tv|now apply in_map]).
    unfold FuzzyProof.encpart in E. change (toks k []) with (@nil pystr) in E. destruct (toks k (x :: v)) as [|y Y]; [destruct I|]. destruct I as [->|I].
    + cbn [map concat] in E. destruct (encw w); [discriminate L|discriminate E].
    + apply (in_map encw) in I. cbn [map concat] in E. apply app_eq_nil in E. destruct E as [_ E]. apply in_split in I. destruct I as (l1 & l2 & I). rewrite I, concat_app in E.
      apply app_eq_nil in E. destruct E as [_ E]. cbn [concat] in E. destruct (encw w); [discriminate L|discriminate E].
  - assert (S : stands 0 (encpart k p) (encpart k v)) by (exists [], []; rewrite app_nil_r; auto). apply (stands_enc k p v 0 Hk Tp Tv L) in S.
    destruct S as (i & Ei & x & y & Ev & Lx). assert (i = 0) by lia. subst i. destruct x; [|discriminate]. cbn [app] in Ev. subst v.
    apply (f_equal (@length N)) in E. rewrite !encpart_length in E by (try assumption; try (apply text_scalar; assumption); rewrite ?app_length; lia). rewrite app_length in E. destruct y; [now rewrite app_nil_r|cbn [length] in E; lia].
Qed.
Lemma laid_out_enc k ps v : 0 < k <= 3 -> forallb scalar v = true -> (forall p, In p ps -> p = [] \/ (3 <= length p /\ forallb textc p = true)) ->
  (laid_out 0 (map (encpart k) ps) (encpart k v) <-> laid_out (k - 1) ps v).
Proof.
  intros Hk Tv Hp. destruct ps as [|p [|q qs]]; [reflexivity| |].
  - cbn [map laid_out]. apply encpart_inj; auto; destruct (Hp p (or_introl eq_refl)) as [->|[L T]]; auto.
  - change (laid_out 0 (map (encpart k) (p :: q :: qs)) (encpart k v)) with (stands 0 (encpart k p) (encpart k v) /\ laid 0 (length (encpart k p)) (map (encpart k) (q :: qs)) (encpart k v)).
    change (laid_out (k - 1) (p :: q :: qs) v) with (stands 0 p v /\ laid (k - 1) (length p) (q :: qs) v).
    assert (Hq : forall p0, In p0 (q :: qs) -> p0 = [] \/ (3 <= length p0 /\ forallb textc p0 = true)) by (intros p0 I; apply Hp; now right).
    destruct (Hp p (or_introl eq_refl)) as [->|[L T]].
    + change (encpart k []) with (@nil N). cbn [length]. rewrite <- (laid_enc k (q :: qs) v Hk Tv Hq 0). replace (24 * (0 + 1 - k)) with 0 by lia.
      split; (intros [_ H]; split; [eexists [], _; split; reflexivity|exact H]).
    + rewrite (stands_enc k p v 0 Hk T Tv L), (encpart_length k p Hk (text_scalar p T) L), (laid_enc k (q :: qs) v Hk Tv Hq).
      split; intros [H1 H2]; split; auto.
      * destruct H1 as (i & E & H1). assert (i = 0) by lia. now subst i.
      * exists 0. auto.
Qed.

(** ** LIKE *)
Lemma plain_no_pct p : forallb plainc p = true -> has_char PCT p = false.
Proof.
  intros H. unfold has_char. destruct (existsb (N.eqb PCT) p) eqn:E; [|reflexivity]. apply existsb_exists in E. destruct E as (x & Hx & Ex). apply N.eqb_eq in Ex. subst x.
  rewrite forallb_forall in H. specialize (H _ Hx). discriminate.
Qed.
Lemma like_laid ps v : ps <> [] -> (forall p, In p ps -> forallb plainc p = true) -> (like (join [PCT] ps) v = true <-> laid_out 0 ps v).
Proof. intros NE H. rewrite <- (pmatch_laid ps v NE). now apply like_parts. Qed.
Lemma like_overlap cls ps v : ps <> [] -> (forall p, In p ps -> part_ok alnum cls p) -> (forall p, In p ps -> forallb plainc p = true) ->
  forallb scalar v = true -> isalnum alnum v = cls ->
  exists pat c, fuzzy_pattern alnum P key (join [PCT] ps) = Ok pat /\ fuzzy_encrypt alnum P key v = Ok c /\
    (like pat c = true <-> laid_out (if cls then 2 else 1) ps v).
Proof.
  intros Hn Hp Hc Hv Cv. set (k := if cls then 3 else 2). exists (join [PCT] (map (encpart k) ps)), (encpart k v).
  split; [apply (fuzzy_pattern_ok alnum P HP key cls ps Hn Hp); intros p I; now apply plain_no_pct, Hc|].
  split; [rewrite (fuzzy_encrypt_toks alnum P HP key v Hv); unfold klen, FuzzyProof.encpart, k; now rewrite Cv|].
  rewrite like_laid.
  - replace (if cls then 2 else 1) with (k - 1) by (unfold k; destruct cls; reflexivity). apply laid_out_enc; [unfold k; destruct cls; lia|exact Hv|].
    intros p I. destruct (Hp p I) as [->|(L & T & _)]; auto.
  - intros M. apply map_eq_nil in M. contradiction.
  - intros q I. apply in_map_iff in I. destruct I as (p & <- & I). apply (encpart_plain alnum P HP key cls p), Hp, I.
Qed.
Lemma like_apart cls ps v : ps <> [] -> (forall p, In p ps -> part_ok alnum cls p) -> (forall p, In p ps -> forallb plainc p = true) ->
  forallb scalar v = true -> isalnum alnum v = cls -> all_apart (if cls then 2 else 1) (filter nonempty ps) ->
  exists pat c, fuzzy_pattern alnum P key (join [PCT] ps) = Ok pat /\ fuzzy_encrypt alnum P key v = Ok c /\ like pat c = like (join [PCT] ps) v.
Proof.
  intros Hn Hp Hc Hv Cv AP. destruct (like_overlap cls ps v Hn Hp Hc Hv Cv) as (pat & c & E1 & E2 & H). exists pat, c. split; [exact E1|]. split; [exact E2|].
  apply eq_true_iff_eq. rewrite H, (like_laid ps v Hn Hc). apply laid_out_apart; [|exact AP].
  intros p I. destruct (Hp p I) as [->|(L & _)]; [auto|right]. destruct cls; lia.
Qed.

(** ** Texts of the other character class *)
Lemma tmatch_occurs {A} (ps : list (list A)) s p : tmatch ps s -> In p ps -> exists a b, s = a ++ p ++ b.
Proof.
  revert s; induction ps as [|q ps IH]; intros s T Hp; [destruct Hp|]. destruct ps as [|q2 ps].
  - destruct T as [a ->]. destruct Hp as [<-|[]]. exists a, []. rewrite app_nil_r. reflexivity.
  - destruct T as (a & b & -> & T). destruct Hp as [<-|Hp]; [exists a, b; reflexivity|].
    destruct (IH b T Hp) as (x & y & ->). exists (a ++ q ++ x), y. rewrite <- !app_assoc. reflexivity.
Qed.
Lemma pmatch_occurs {A} (ps : list (list A)) s p : pmatch ps s -> In p ps -> exists a b, s = a ++ p ++ b.
Proof.
  destruct ps as [|q ps]; [intros _ []|]. destruct ps as [|q2 ps].
  - intros ->. intros [<-|[]]. exists [], []. rewrite app_nil_r. reflexivity.
  - intros (s' & -> & T) [<-|Hp]; [exists [], s'; reflexivity|].
    destruct (tmatch_occurs _ _ _ T Hp) as (x & y & ->). exists (q ++ x), y. rewrite <- !app_assoc. reflexivity.
Qed.
Lemma windows_step k v V1 a b V2 : windows k v = V1 ++ a :: b :: V2 -> tl a = firstn (k - 1) b.
Proof.
  revert v; induction V1 as [|w V1 IH]; intros v H; cbn [app] in H.
  - destruct v as [|x v]; [discriminate|]. cbn [windows] in H. destruct (Nat.leb_spec k (length (x :: v))); [|discriminate]. injection H as <- H.
    destruct v as [|y v]; [discriminate|]. cbn [windows] in H. destruct (Nat.leb_spec k (length (y :: v))); [|discriminate]. injection H as <- _.
    destruct k as [|k]; [reflexivity|]. change (firstn k (y :: v) = firstn (S k - 1) (firstn (S k) (y :: v))). rewrite firstn_firstn. now replace (min (S k - 1) (S k)) with k by lia.
  - destruct v as [|x v]; [discriminate|]. cbn [windows] in H. destruct (Nat.leb_spec k (length (x :: v))); [|discriminate]. injection H as _ H. exact (IH v H).
Qed.
Lemma other_class p v a b : forallb textc p = true -> forallb scalar v = true -> 3 <= length p -> isalnum alnum p <> isalnum alnum v ->
  encpart (klen alnum v) v = a ++ encpart (klen alnum p) p ++ b -> False.
Proof.
  intros Tp Tv L C E. set (kp := klen alnum p) in *. set (kv := klen alnum v) in *.
  assert (K : kp = 2 /\ kv = 3 \/ kp = 3 /\ kv = 2) by (unfold kp, kv, klen; destruct (isalnum alnum p), (isalnum alnum v); [congruence|auto..|congruence]).
  assert (TW : toks kp p = windows kp p) by (apply (windows_toks alnum); lia).
  assert (NW : length (windows kp p) = length p + 1 - kp) by (apply windows_length; lia).
  destruct (aligned (map encw (toks kv v)) (map encw (toks kp p)) a b) as (X1 & X2 & E' & _ & _).
  - intros x I. apply (toks_good alnum P HP key kv v x); [lia|exact Tv|exact I].
  - intros x I. apply (toks_good alnum P HP key kp p x); [lia|exact (text_scalar p Tp)|exact I].
  - intros M. apply map_eq_nil in M. rewrite TW in M. rewrite M in NW. cbn in NW. lia.
  - exact E.
  - rewrite TW in E'. clear E TW. destruct K as [[Ep Ev]|[Ep Ev]]; rewrite Ep, Ev in *; clearbody kp kv; clear kp kv Ep Ev.
    + destruct p as [|c1 [|c2 [|c3 p]]]; try (cbn in L; lia). change (windows 2 (c1 :: c2 :: c3 :: p)) with ([c1; c2] :: [c2; c3] :: windows 2 (c3 :: p)) in E'.
      cbn [map app] in E'. apply map_eq_app in E'. destruct E' as (V1 & R & ET & _ & E'). destruct R as [|v1 [|v2 V2]]; try discriminate E'. cbn [map] in E'. injection E' as E1 E2 _.
      assert (W : toks 3 v = windows 3 v).
      { apply (windows_toks alnum); [lia|]. destruct (Nat.le_gt_cases 3 (length v)) as [G|G]; [exact G|exfalso]. destruct v as [|x v]; [destruct V1; discriminate|].
        rewrite toks_nonnil in ET by discriminate. destruct (Nat.ltb_spec (length (x :: v)) 3); [|lia]. apply (f_equal (@length pystr)) in ET. rewrite app_length in ET. cbn [length] in ET. lia. }
      assert (T1 : forall w, In w (toks 3 v) -> forallb scalar w = true /\ length w = 3).
      { intros w I. split; [exact (proj1 (toks_In alnum scalar 3 v w Tv I))|]. rewrite W in I. apply windows_elem in I. destruct I as (_ & _ & _ & G). exact G. }
      destruct (T1 v1) as [S1 L1]; [rewrite ET; apply in_app_iff; right; now left|]. destruct (T1 v2) as [S2 L2]; [rewrite ET; apply in_app_iff; right; right; now left|].
      rewrite W in ET. apply windows_step in ET. cbn [forallb] in Tp.
      destruct (encw_pad P HP key v1 [c1; c2] S1) as [n1 F1]; [cbn [forallb]; destruct (textc c1), (textc c2); try discriminate; reflexivity|exact E1|].
      destruct (encw_pad P HP key v2 [c2; c3] S2) as [n2 F2]; [cbn [forallb]; destruct (textc c1), (textc c2), (textc c3); try discriminate; reflexivity|exact E2|].
      rewrite F1 in L1. rewrite F1, F2 in ET. destruct n1 as [|[|n1]]; try (cbn in L1; lia). cbn in ET. injection ET as <-. destruct (textc c1), (textc c2); discriminate Tp.
    + destruct (windows 3 p) as [|w W] eqn:EW; [cbn in NW; lia|]. assert (Iw : In w (windows 3 p)) by (rewrite EW; now left).
      destruct (windows_elem 3 p w Iw) as (_ & _ & _ & Lw).
      assert (Iv : In (encw w) (map encw (toks 2 v))) by (rewrite E'; apply in_app_iff; right; apply in_app_iff; left; now left).
      apply in_map_iff in Iv. destruct Iv as (w' & Ew & Iv). destruct (toks_In alnum scalar 2 v w' Tv Iv) as [S' L'].
      apply (encw_inj P HP key) in Ew; [subst w'; lia|exact S'|exact (windows_text textc 3 p w Tp Iw)|lia].
Qed.
Lemma like_other_class ps v p : (forall q, In q ps -> q = [] \/ (3 <= length q /\ forallb textc q = true)) -> (forall q, In q ps -> forallb plainc q = true) ->
  forallb scalar v = true -> In p ps -> p <> [] -> isalnum alnum p <> isalnum alnum v ->
  exists pat c, fuzzy_pattern alnum P key (join [PCT] ps) = Ok pat /\ fuzzy_encrypt alnum P key v = Ok c /\ like pat c = false.
Proof.
  intros Hp Hc Hv I NE C. assert (Hn : ps <> []) by (intros ->; destruct I). set (f := fun q => encpart (klen alnum q) q).
  exists (join [PCT] (map f ps)), (encpart (klen alnum v) v). split; [|split].
  - unfold fuzzy_pattern. rewrite split_join by (auto using plain_no_pct). rewrite (mapM_map _ f); [reflexivity|]. intros q J.
    unfold f. unfold klen. apply (fuzzy_part_ok alnum P HP key (isalnum alnum q)). destruct (Hp q J) as [->|[L T]]; [now left|right; auto].
  - apply (fuzzy_encrypt_toks alnum P HP key v Hv).
  - apply not_true_is_false. intros H. apply like_parts in H.
    + destruct (pmatch_occurs _ _ (f p) H (in_map f ps p I)) as (a & b & E). destruct (Hp p I) as [->|[L T]]; [contradiction|].
      exact (other_class p v a b T Hv L C E).
    + intros M. apply map_eq_nil in M. contradiction.
    + intros q J. apply in_map_iff in J. destruct J as (q0 & <- & J). unfold f, klen. apply (encpart_plain alnum P HP key (isalnum alnum q0) q0).
      destruct (Hp q0 J) as [->|[L T]]; [now left|right; auto].
Qed.

(** A pattern whose parts all contain other characters than letters and digits is answered exactly for every text. *)
Lemma isalnum_sub a p b : isalnum alnum (a ++ p ++ b) = true -> p <> [] -> isalnum alnum p = true.
Proof.
  intros H NE. assert (F : forallb alnum (a ++ p ++ b) = true) by (destruct (a ++ p ++ b); [discriminate|exact H]).
  rewrite !forallb_app in F. apply andb_true_iff in F. destruct F as [_ F]. apply andb_true_iff in F. destruct F as [F _]. now destruct p.
Qed.
Lemma like_symbols ps v : ps <> [] -> (forall p, In p ps -> part_ok alnum false p) -> (forall p, In p ps -> forallb plainc p = true) ->
  forallb scalar v = true -> all_apart 1 (filter nonempty ps) ->
  exists pat c, fuzzy_pattern alnum P key (join [PCT] ps) = Ok pat /\ fuzzy_encrypt alnum P key v = Ok c /\ like pat c = like (join [PCT] ps) v.
Proof.
  intros Hn Hp Hc Hv AP. destruct (isalnum alnum v) eqn:Cv; [|exact (like_apart false ps v Hn Hp Hc Hv Cv AP)].
  destruct (filter nonempty ps) as [|p fs] eqn:EF.
  - apply (like_apart true ps v Hn); auto; [|now rewrite EF]. intros p I. left. destruct p as [|x p]; [reflexivity|exfalso].
    assert (J : In (x :: p) (filter nonempty ps)) by (apply filter_In; auto). rewrite EF in J. destruct J.
  - assert (J : In p ps /\ nonempty p = true) by (apply filter_In; rewrite EF; now left). destruct J as [I NE].
    assert (NP : p <> []) by (intros ->; discriminate). destruct (Hp p I) as [->|(L & T & C)]; [contradiction|].
    destruct (like_other_class ps v p) as (pat & c & E1 & E2 & E3); auto.
    + intros q J. destruct (Hp q J) as [->|(L' & T' & _)]; auto.
    + rewrite C, Cv. discriminate.
    + exists pat, c. split; [exact E1|]. split; [exact E2|]. rewrite E3. symmetry. apply not_true_is_false. intros H. apply like_parts in H; auto.
      destruct (pmatch_occurs _ _ p H I) as (a & b & EV). rewrite EV in Cv. apply isalnum_sub in Cv; [congruence|exact NP].
Qed.
End F.

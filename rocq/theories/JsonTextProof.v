(** Reading back what json.dumps wrote. *)
From Coq Require Import String Ascii List NArith ZArith Bool Lia ZifyBool ZifyNat ZifyN.
From Verif Require Import Base BaseProof JsonText.
Import ListNotations.

(** A Unicode scalar value: what MySQL and the parser produce; a lone surrogate is not one. *)
Definition scalar (c : N) : Prop := (c < 1114112 /\ ~ (55296 <= c <= 57343))%N.

(** Values json.dumps writes as JSON: finite floats, texts of Unicode scalars, dicts with distinct
    keys, nothing it refuses. *)
Fixpoint wfj (v : jv) : Prop :=
  match v with
  | VNull | VBool _ | VInt _ => True
  | VFloat t => t <> [] /\ forallb num_char t = true /\ (forall z, parse_int t <> Ok z)
  | VStr s => Forall scalar s
  | VList l => (fix go l := match l with [] => True | x :: r => wfj x /\ go r end) l
  | VDict d => NoDup (map fst d)
               /\ (fix go d := match d with
                               | [] => True
                               | (k, x) :: r => Forall scalar k /\ wfj x /\ go r
                               end) d
  | VOther => False
  end.

Lemma wfj_list l : wfj (VList l) <-> Forall wfj l.
Proof.
  cbn. induction l as [|x r IH]; [split; constructor|]. split.
  - intros [A B]. constructor; [exact A | apply IH, B].
  - intros H. inversion H; subst. split; [assumption | apply IH; assumption].
Qed.

Lemma wfj_dict d :
  wfj (VDict d) <-> NoDup (map fst d) /\ Forall (fun kv => Forall scalar (fst kv) /\ wfj (snd kv)) d.
Proof.
  cbn. apply and_iff_compat_l. induction d as [|[k x] r IH]; [split; constructor|]. split.
  - intros (A & B & C). constructor; [split; assumption | apply IH, C].
  - intros H. inversion H; subst. destruct H2. split; [assumption|]. split; [assumption|].
    apply IH; assumption.
Qed.

(** ** Strings *)

Lemma unhex_hexdig n : (n < 16)%N -> unhex (hexdig n) = Some n.
Proof.
  intros H. unfold unhex, hexdig.
  destruct (N.ltb_spec n 10).
  - replace (48 <=? 48 + n)%N with true by lia. replace (48 + n <=? 57)%N with true by lia.
    cbn [andb]. f_equal. lia.
  - replace (87 + n <=? 57)%N with false by lia. rewrite andb_false_r.
    replace (97 <=? 87 + n)%N with true by lia. replace (87 + n <=? 102)%N with true by lia.
    cbn [andb]. f_equal. lia.
Qed.

Lemma unhex4_uesc n :
  (n < 65536)%N ->
  unhex4 (hexdig (n / 4096)) (hexdig (n / 256 mod 16)) (hexdig (n / 16 mod 16)) (hexdig (n mod 16))
  = Some n.
Proof.
  intros H. unfold unhex4.
  rewrite !unhex_hexdig; try (apply N.mod_lt; lia); [|apply N.div_lt_upper_bound; lia].
  f_equal.
  pose proof (N.div_mod n 16 ltac:(lia)) as A.
  pose proof (N.div_mod (n / 16) 16 ltac:(lia)) as B.
  pose proof (N.div_mod (n / 256) 16 ltac:(lia)) as C.
  assert (E1 : (n / 16 / 16 = n / 256)%N) by (rewrite N.div_div by lia; reflexivity).
  assert (E2 : (n / 256 / 16 = n / 4096)%N) by (rewrite N.div_div by lia; reflexivity).
  rewrite E1 in B. rewrite E2 in C. lia.
Qed.

Definition push (c : N) (o : option (pystr * pystr)) :=
  match o with Some (a, b) => Some (c :: a, b) | None => None end.

(** A non-surrogate \u escape. *)
Lemma read_str_uesc n r :
  (n < 65536)%N -> hi_surr n = false ->
  read_str (uesc n ++ r) = push n (read_str r).
Proof.
  intros H Hs. unfold uesc.
  change ([92%N; 117%N; hexdig (n / 4096); hexdig (n / 256 mod 16); hexdig (n / 16 mod 16);
           hexdig (n mod 16)] ++ r)
    with (92%N :: 117%N :: hexdig (n / 4096) :: hexdig (n / 256 mod 16)
              :: hexdig (n / 16 mod 16) :: hexdig (n mod 16) :: r).
  cbn [read_str]. cbn [N.eqb Pos.eqb]. cbv zeta.
  rewrite unhex4_uesc by exact H. rewrite Hs. reflexivity.
Qed.

Lemma read_str_pair n m r :
  (n < 65536)%N -> (m < 65536)%N -> hi_surr n = true -> lo_surr m = true ->
  read_str (uesc n ++ uesc m ++ r)
  = push (65536 + (n - 55296) * 1024 + (m - 56320))%N (read_str r).
Proof.
  intros Hn Hm Sn Sm.
  change (uesc n ++ uesc m ++ r)
    with (92%N :: 117%N :: hexdig (n / 4096) :: hexdig (n / 256 mod 16)
              :: hexdig (n / 16 mod 16) :: hexdig (n mod 16)
              :: 92%N :: 117%N :: hexdig (m / 4096) :: hexdig (m / 256 mod 16)
              :: hexdig (m / 16 mod 16) :: hexdig (m mod 16) :: r).
  cbn [read_str]. cbn [N.eqb Pos.eqb andb]. cbv zeta.
  rewrite (unhex4_uesc n) by exact Hn. rewrite Sn.
  rewrite (unhex4_uesc m) by exact Hm. rewrite Sm. reflexivity.
Qed.

Lemma read_str_char c r : scalar c -> read_str (esc_char c ++ r) = push c (read_str r).
Proof.
  intros [H1 H2]. unfold esc_char.
  destruct (N.eqb_spec c 34); [subst; reflexivity|].
  destruct (N.eqb_spec c 92); [subst; reflexivity|].
  destruct (N.eqb_spec c 10); [subst; reflexivity|].
  destruct (N.eqb_spec c 13); [subst; reflexivity|].
  destruct (N.eqb_spec c 9); [subst; reflexivity|].
  destruct (N.eqb_spec c 12); [subst; reflexivity|].
  destruct (N.eqb_spec c 8); [subst; reflexivity|].
  destruct ((32 <=? c)%N && (c <=? 126)%N) eqn:E.
  - cbn [app read_str]. cbv zeta.
    replace (c =? 34)%N with false by lia. replace (c =? 92)%N with false by lia.
    replace (c <? 32)%N with false by lia. reflexivity.
  - destruct (N.ltb_spec c 65536).
    + apply read_str_uesc; [assumption | unfold hi_surr; lia].
    + rewrite <- app_assoc.
      set (v := (c - 65536)%N).
      assert (Hv : (v / 1024 < 1024)%N) by (apply N.div_lt_upper_bound; lia).
      assert (Hm : (v mod 1024 < 1024)%N) by (apply N.mod_lt; lia).
      rewrite read_str_pair; [|lia|lia|unfold hi_surr; lia|unfold lo_surr; lia].
      f_equal. pose proof (N.div_mod v 1024 ltac:(lia)). lia.
Qed.

Lemma read_str_dumps s r :
  Forall scalar s -> read_str (concat (map esc_char s) ++ 34%N :: r) = Some (s, r).
Proof.
  intros H. induction H as [|c s Hc Hs IH]; [reflexivity|].
  cbn [map concat]. rewrite <- app_assoc, (read_str_char c _ Hc), IH. reflexivity.
Qed.

Lemma read_dumps_str s r :
  Forall scalar s -> dumps_str s ++ r = 34%N :: concat (map esc_char s) ++ 34%N :: r.
Proof. intros _. unfold dumps_str. cbn [app]. rewrite <- app_assoc. reflexivity. Qed.

(** ** Numbers *)

Lemma num_char_int z c : In c (str_int z) -> num_char c = true.
Proof. intros H. apply str_int_char in H. unfold num_char. lia. Qed.

Definition stops (r : pystr) : Prop := match r with [] => True | c :: _ => num_char c = false end.

Lemma span_num t r : forallb num_char t = true -> stops r -> span num_char (t ++ r) = (t, r).
Proof.
  induction t as [|c t IH]; cbn [forallb app span].
  - intros _ H. destruct r as [|c r]; [reflexivity|]. cbn in *. rewrite H. reflexivity.
  - intros H Hr. apply andb_true_iff in H as [H1 H2]. rewrite H1, (IH H2 Hr). reflexivity.
Qed.

(** ** Texts of values *)

(** The texts of the elements of a list and of the items of a dict. *)
Definition texts (l : list jv) : res (list pystr) := mapM dumps l.
Definition item (kv : pystr * jv) : res pystr :=
  do t <- dumps (snd kv); Ok (dumps_str (fst kv) ++ u ": " ++ t).

Lemma dumps_list l : dumps (VList l) = do ts <- mapM dumps l; Ok ([91%N] ++ join (u ", ") ts ++ [93%N]).
Proof.
  cbn [dumps]. f_equal. 
Qed.

Lemma dumps_dict d :
  dumps (VDict d) = do ts <- mapM item d; Ok ([123%N] ++ join (u ", ") ts ++ [125%N]).
Proof.
  cbn [dumps].
  match goal with |- bind ?a _ = bind ?b _ => assert (E : a = b) end.
  { induction d as [|[k x] r IH]; [reflexivity|]. cbn [mapM]. unfold item at 1. cbn [fst snd].
    destruct (dumps x) as [t|e]; [|reflexivity]. cbn [bind]. rewrite IH. reflexivity. }
  rewrite E. reflexivity.
Qed.

(** A value has a text. *)
Lemma dumps_total v : wfj v -> exists t, dumps v = Ok t.
Proof.
  induction v as [|b|z|q|s|l IH|d IH|] using jv_ind2; intros H; try (eexists; reflexivity).
  - destruct b; eexists; reflexivity.
  - rewrite dumps_list. apply wfj_list in H.
    assert (E : exists ts, mapM dumps l = Ok ts).
    { clear - IH H. induction l as [|x r IHr]; [exists []; reflexivity|].
      inversion H; inversion IH; subst. destruct (H6 H2) as [t Ht].
      destruct (IHr H7 H3) as [ts Hts]. exists (t :: ts). cbn. rewrite Ht. cbn. rewrite Hts. reflexivity. }
    destruct E as [ts ->]. eexists; reflexivity.
  - rewrite dumps_dict. apply wfj_dict in H as [_ H].
    assert (E : exists ts, mapM item d = Ok ts).
    { clear - IH H. induction d as [|[k x] r IHr]; [exists []; reflexivity|].
      inversion H; inversion IH; subst. destruct H2 as [_ H2]. destruct (H6 H2) as [t Ht].
      destruct (IHr H7 H3) as [ts Hts]. eexists. cbn [mapM]. unfold item at 1. cbn [fst snd] in *.
      rewrite Ht. cbn. rewrite Hts. reflexivity. }
    destruct E as [ts ->]. eexists; reflexivity.
  - contradiction.
Qed.

(** The first character of a value's text; it is not a blank nor a closing bracket. *)
Lemma dumps_head v t : wfj v -> dumps v = Ok t ->
  exists c t', t = c :: t' /\ is_ws c = false /\ c <> 93%N /\ c <> 125%N.
Proof.
  intros W E.
  assert (N0 : forall c, num_char c = true -> is_ws c = false /\ c <> 93%N /\ c <> 125%N)
    by (unfold num_char, is_ws; intros; lia).
  destruct v as [|b|z|q|s|l|d|]; cbn [dumps] in E; try discriminate.
  - injection E as <-. do 2 eexists. split; [reflexivity|]. repeat split; discriminate.
  - destruct b; injection E as <-; do 2 eexists; (split; [reflexivity|]); repeat split; discriminate.
  - injection E as <-. destruct (str_int z) as [|c t'] eqn:Ez; [destruct (str_int_nonempty z Ez)|].
    exists c, t'. split; [reflexivity|]. apply N0, (num_char_int z). rewrite Ez. left. reflexivity.
  - injection E as <-. destruct W as (W1 & W2 & _). destruct q as [|c t']; [contradiction|].
    exists c, t'. split; [reflexivity|]. cbn in W2. apply andb_true_iff in W2 as [W2 _]. apply N0, W2.
  - injection E as <-. do 2 eexists. split; [reflexivity|]. repeat split; discriminate.
  - rewrite <- dumps_list in E || (change (dumps (VList l) = Ok t) in E).
    rewrite dumps_list in E. destruct (mapM dumps l); [|discriminate]. injection E as <-.
    do 2 eexists. split; [reflexivity|]. repeat split; discriminate.
  - change (dumps (VDict d) = Ok t) in E.
    rewrite dumps_dict in E. destruct (mapM item d); [|discriminate]. injection E as <-.
    do 2 eexists. split; [reflexivity|]. repeat split; discriminate.
Qed.

Lemma ws_cons c r : is_ws c = false -> ws (c :: r) = c :: r.
Proof. intros H. cbn. rewrite H. reflexivity. Qed.

Lemma value_ws n c s : is_ws c = true -> value n (c :: s) = value n s.
Proof. intros H. destruct n; [reflexivity|]. cbn [value ws]. rewrite H. reflexivity. Qed.

(** [reads v]: reading the text of [v] in front of something that does not continue a number. *)
Definition reads (v : jv) : Prop :=
  forall t n r, wfj v -> dumps v = Ok t -> (2 * length t < n)%nat -> stops r ->
  value n (t ++ r) = Some (v, r).

Lemma elems_S n s :
  elems (S n) s =
    match value n s with
    | None => None
    | Some (v, r) =>
      match ws r with
      | c :: r' =>
        if (c =? 93)%N then Some ([v], r') else
        if (c =? 44)%N then
          match elems n r' with Some (l, r'') => Some (v :: l, r'') | None => None end
        else None
      | [] => None
      end
    end.
Proof. reflexivity. Qed.

Lemma members_S n acc s :
  members (S n) acc s =
    match ws s with
    | c :: r =>
      if (c =? 34)%N then
        match read_str r with
        | None => None
        | Some (k, r1) =>
          match ws r1 with
          | c1 :: r2 =>
            if (c1 =? 58)%N then
              match value n r2 with
              | None => None
              | Some (v, r3) =>
                match ws r3 with
                | c2 :: r4 =>
                  if (c2 =? 125)%N then Some (dset acc k v, r4) else
                  if (c2 =? 44)%N then members n (dset acc k v) r4 else None
                | [] => None
                end
              end
            else None
          | [] => None
          end
        end
      else None
    | [] => None
    end.
Proof. reflexivity. Qed.

(** Both separators: json.dumps' ", " and the "," of handler.py L301. *)
Definition sep_ok (sep : pystr) : Prop := sep = [44%N] \/ sep = [44; 32]%N.

Lemma elems_texts sep l : forall ts n r,
  sep_ok sep -> l <> [] -> Forall reads l -> Forall wfj l -> mapM dumps l = Ok ts ->
  (2 * length (join sep ts) + 1 < n)%nat ->
  elems n (join sep ts ++ 93%N :: r) = Some (l, r).
Proof.
  induction l as [|v l IH]; intros ts n r Hs Hne HR HW HM Hn; [contradiction|].
  inversion HR as [|? ? Rv Rl]; inversion HW as [|? ? Wv Wl]; subst.
  cbn [mapM] in HM. destruct (dumps v) as [t|] eqn:Ev; [|discriminate]. cbn [bind] in HM.
  destruct (mapM dumps l) as [ts'|] eqn:El; [|discriminate]. injection HM as <-.
  destruct n as [|n]; [lia|]. rewrite elems_S.
  destruct l as [|w l].
  - cbn in El. injection El as <-. cbn [join] in *.
    rewrite (Rv t n (93%N :: r) Wv Ev ltac:(lia) ltac:(reflexivity)). reflexivity.
  - destruct ts' as [|t' ts']; [cbn in El; destruct (dumps w); [|discriminate]; cbn in El;
                                destruct (mapM dumps l); discriminate|].
    change (join sep (t :: t' :: ts')) with (t ++ sep ++ join sep (t' :: ts')) in *.
    rewrite !app_length in Hn. rewrite <- !app_assoc.
    assert (St : stops (sep ++ join sep (t' :: ts') ++ 93%N :: r))
      by (destruct Hs; subst; reflexivity).
    rewrite (Rv t n _ Wv Ev ltac:(lia) St).
    specialize (IH (t' :: ts') n r Hs ltac:(discriminate) Rl Wl ltac:(first [assumption | reflexivity])).
    destruct Hs; subst sep; cbn [app length] in *.
    + rewrite ws_cons by reflexivity. cbn [N.eqb Pos.eqb].
      rewrite IH by lia. reflexivity.
    + rewrite ws_cons by reflexivity. cbn [N.eqb Pos.eqb].
      destruct n as [|n]; [lia|]. rewrite elems_S, value_ws by reflexivity. rewrite <- elems_S.
      rewrite IH by lia. reflexivity.
Qed.

Lemma join_head (sep c : pystr) ts : exists w, join sep (c :: ts) = c ++ w.
Proof. destruct ts as [|d ts]; [exists []; cbn; now rewrite app_nil_r | eexists; reflexivity]. Qed.

Lemma dset_fresh {V} (d : dict V) k v : ~ In k (map fst d) -> dset d k v = d ++ [(k, v)].
Proof.
  induction d as [|[k' v'] d IH]; [reflexivity|]. cbn [map fst In dset]. intros H.
  destruct (seqb_spec k k') as [->|Hk]; [destruct H; left; reflexivity|].
  rewrite IH; [reflexivity|]. intros X. apply H. right. exact X.
Qed.

Lemma members_texts d : forall acc ts n r,
  d <> [] -> Forall (fun kv => reads (snd kv)) d ->
  Forall (fun kv => Forall scalar (fst kv) /\ wfj (snd kv)) d ->
  NoDup (map fst (acc ++ d)) -> mapM item d = Ok ts ->
  (2 * length (join (u ", ") ts) + 1 < n)%nat ->
  members n acc (join (u ", ") ts ++ 125%N :: r) = Some (acc ++ d, r).
Proof.
  induction d as [|[k v] d IH]; intros acc ts n r Hne HR HW HN HM Hn; [contradiction|].
  inversion HR as [|? ? Rv Rl]; inversion HW as [|? ? [Wk Wv] Wl]; subst. cbn [fst snd] in *.
  assert (Hk : ~ In k (map fst acc)).
  { rewrite map_app in HN. cbn [map fst] in HN. apply NoDup_remove_2 in HN.
    intros X. apply HN. apply in_or_app. left. exact X. }
  cbn [mapM] in HM. unfold item at 1 in HM. cbn [fst snd] in HM.
  destruct (dumps v) as [t|] eqn:Ev; [|discriminate]. cbn [bind] in HM.
  destruct (mapM item d) as [ts'|] eqn:El; [|discriminate]. cbn [bind] in HM.
  assert (Ets : ts = @cons pystr (dumps_str k ++ u ": " ++ t) ts') by (injection HM; intros <-; reflexivity). clear HM. subst ts.
  destruct n as [|n]; [lia|]. 
  assert (Len : (2 * length t < n)%nat).
  { clear - Hn. destruct (join_head (u ", ") (dumps_str k ++ u ": " ++ t) ts') as [w Ew].
    rewrite Ew in Hn. rewrite !app_length in Hn. lia. }
  assert (Head : forall x rest,
             members (S n) acc ((dumps_str k ++ u ": " ++ t) ++ x :: rest)
             = match value n ((32%N :: t) ++ x :: rest) with
               | None => None
               | Some (v, r3) =>
                 match ws r3 with
                 | c2 :: r4 =>
                   if (c2 =? 125)%N then Some (dset acc k v, r4) else
                   if (c2 =? 44)%N then members n (dset acc k v) r4 else None
                 | [] => None
                 end
               end).
  { intros x rest. rewrite members_S. rewrite <- app_assoc, read_dumps_str by exact Wk.
    rewrite ws_cons by reflexivity. cbn [N.eqb Pos.eqb].
    rewrite (read_str_dumps k _ Wk). reflexivity. }
  destruct d as [|[k2 v2] d].
  - cbn in El. injection El as <-. cbn [join] in *. rewrite Head.
    cbn [app]. rewrite value_ws by reflexivity.
    rewrite (Rv t n (125%N :: r) Wv Ev Len ltac:(reflexivity)).
    cbn. rewrite dset_fresh by exact Hk. reflexivity.
  - destruct ts' as [|t' ts'].
    { cbn [mapM] in El. destruct (item (k2, v2)); [|discriminate]. cbn [bind] in El.
      destruct (mapM item d); discriminate. }
    change (join (u ", ") ((dumps_str k ++ u ": " ++ t) :: t' :: ts'))
      with ((dumps_str k ++ u ": " ++ t) ++ 44%N :: 32%N :: join (u ", ") (t' :: ts')) in *.
    rewrite app_length in Hn. cbn [length] in Hn.
    rewrite <- app_assoc. cbn [app]. 
    change ((44%N :: 32%N :: join (u ", ") (t' :: ts')) ++ 125%N :: r)
      with (44%N :: 32%N :: join (u ", ") (t' :: ts') ++ 125%N :: r).
    rewrite Head. cbn [app]. rewrite value_ws by reflexivity.
    rewrite (Rv t n _ Wv Ev Len); [|reflexivity].
    rewrite ws_cons by reflexivity. cbn [N.eqb Pos.eqb]. rewrite dset_fresh by exact Hk.
    assert (Sp : forall m a s, members m a (32%N :: s) = members m a s)
      by (intros [|m] a s; reflexivity).
    rewrite Sp.
    specialize (IH (acc ++ [(k, v)]) (t' :: ts') n r ltac:(discriminate) Rl Wl).
    rewrite <- app_assoc in IH. cbn [app] in IH. apply IH; [exact HN | reflexivity || assumption | lia].
Qed.

Lemma elems_head n s : (exists c t, s = c :: t /\ is_ws c = false /\ c <> 93%N) ->
  value (S n) (91%N :: s) = match elems n s with Some (l, r) => Some (VList l, r) | None => None end.
Proof.
  intros (c & t & -> & H1 & H2). cbn [value]. rewrite ws_cons by reflexivity.
  cbn [N.eqb Pos.eqb]. rewrite ws_cons by exact H1.
  destruct c as [|p]; [reflexivity|].
  destruct (N.eq_dec (Npos p) 93) as [E|E]; [contradiction|].
  repeat first [reflexivity | (destruct p as [p|p|]; try reflexivity; try (exfalso; apply E; reflexivity))].
Qed.

Lemma members_head n s : (exists c t, s = c :: t /\ is_ws c = false /\ c <> 125%N) ->
  value (S n) (123%N :: s)
  = match members n [] s with Some (l, r) => Some (VDict l, r) | None => None end.
Proof.
  intros (c & t & -> & H1 & H2). cbn [value]. rewrite ws_cons by reflexivity.
  cbn [N.eqb Pos.eqb]. rewrite ws_cons by exact H1.
  destruct c as [|p]; [reflexivity|].
  destruct (N.eq_dec (Npos p) 125) as [E|E]; [contradiction|].
  repeat first [reflexivity | (destruct p as [p|p|]; try reflexivity; try (exfalso; apply E; reflexivity))].
Qed.

Lemma value_num n c t r :
  num_char c = true -> forallb num_char t = true -> stops r ->
  value (S n) ((c :: t) ++ r)
  = match parse_int (c :: t) with Ok z => Some (VInt z, r) | Err _ => Some (VFloat (c :: t), r) end.
Proof.
  intros H1 H2 H3. cbn [value app].
  assert (W : is_ws c = false) by (unfold num_char, is_ws in *; lia).
  rewrite ws_cons by exact W.
  assert (E1 : (c =? 34)%N = false) by (unfold num_char in *; lia).
  assert (E2 : (c =? 91)%N = false) by (unfold num_char in *; lia).
  assert (E3 : (c =? 123)%N = false) by (unfold num_char in *; lia).
  rewrite E1, E2, E3, H1.
  change (c :: t ++ r) with ((c :: t) ++ r).
  rewrite span_num; [reflexivity | cbn; rewrite H1, H2; reflexivity | exact H3].
Qed.

Lemma reads_all v : reads v.
Proof.
  induction v as [|b|z|q|s|l IH|d IH|] using jv_ind2; intros t n r W E Hn Hr;
    (destruct n as [|n]; [lia|]).
  - cbn in E. injection E as <-. reflexivity.
  - destruct b; cbn in E; injection E as <-; reflexivity.
  - cbn [dumps] in E. injection E as <-.
    pose proof (parse_str_int z) as P.
    assert (A : forallb num_char (str_int z) = true)
      by (apply forallb_forall; intros c; apply num_char_int).
    destruct (str_int z) as [|c t'] eqn:Ez; [destruct (str_int_nonempty z Ez)|].
    cbn in A. apply andb_true_iff in A as [A1 A2].
    rewrite value_num by assumption. rewrite P. reflexivity.
  - cbn [dumps] in E. injection E as <-. destruct W as (W1 & W2 & W3).
    destruct q as [|c t']; [contradiction|]. cbn in W2. apply andb_true_iff in W2 as [A1 A2].
    rewrite value_num by assumption.
    destruct (parse_int (c :: t')) as [z|e] eqn:P; [destruct (W3 z eq_refl) | reflexivity].
  - cbn [dumps] in E. injection E as <-. cbn in W.
    rewrite read_dumps_str by exact W. cbn [value]. rewrite ws_cons by reflexivity.
    cbn [N.eqb Pos.eqb]. rewrite read_str_dumps by exact W. reflexivity.
  - rewrite dumps_list in E. apply wfj_list in W.
    destruct (mapM dumps l) as [ts|] eqn:El; [|discriminate]. cbn [bind] in E.
    assert (Et : t = 91%N :: join (u ", ") ts ++ [93%N]) by (injection E; intros <-; reflexivity).
    clear E. subst t.
    destruct l as [|v l].
    + cbn in El. injection El as <-. reflexivity.
    + change ((91%N :: join (u ", ") ts ++ [93%N]) ++ r)
        with (91%N :: (join (u ", ") ts ++ [93%N]) ++ r).
      rewrite <- app_assoc. cbn [app length] in Hn. rewrite app_length in Hn. cbn [length] in Hn.
      assert (HH : exists c t, join (u ", ") ts ++ [93%N] ++ r = c :: t /\ is_ws c = false /\ c <> 93%N).
      { cbn [mapM] in El. destruct (dumps v) as [t|] eqn:Ev; [|discriminate]. cbn [bind] in El.
        destruct (mapM dumps l) as [ts'|]; [|discriminate]. injection El as <-.
        inversion W; subst.
        destruct (dumps_head v t H1 Ev) as (c & t' & -> & A & B & _).
        destruct (join_head (u ", ") (c :: t') ts') as [w ->].
        exists c. eexists. split; [reflexivity|]. split; assumption. }
      rewrite (elems_head n _ HH). cbn [app].
      rewrite (elems_texts (u ", ") (v :: l) ts n r (or_intror eq_refl) ltac:(discriminate) IH W El)
        by lia.
      reflexivity.
  - rewrite dumps_dict in E. apply wfj_dict in W as [Wn W].
    destruct (mapM item d) as [ts|] eqn:El; [|discriminate]. cbn [bind] in E.
    assert (Et : t = 123%N :: join (u ", ") ts ++ [125%N]) by (injection E; intros <-; reflexivity).
    clear E. subst t.
    destruct d as [|[k v] d].
    + cbn in El. injection El as <-. reflexivity.
    + change ((123%N :: join (u ", ") ts ++ [125%N]) ++ r)
        with (123%N :: (join (u ", ") ts ++ [125%N]) ++ r).
      rewrite <- app_assoc. cbn [app length] in Hn. rewrite app_length in Hn. cbn [length] in Hn.
      assert (HH : exists c t, join (u ", ") ts ++ [125%N] ++ r = c :: t /\ is_ws c = false /\ c <> 125%N).
      { cbn [mapM] in El. destruct (item (k, v)) as [t|] eqn:Ev; [|discriminate]. cbn [bind] in El.
        destruct (mapM item d) as [ts'|]; [|discriminate]. injection El as <-.
        unfold item in Ev. cbn [fst snd] in Ev. destruct (dumps v) as [tv|]; [|discriminate].
        cbn [bind] in Ev.
        assert (Et : t = dumps_str k ++ u ": " ++ tv) by (injection Ev; intros <-; reflexivity).
        clear Ev. destruct (join_head (u ", ") t ts') as [w ->]. rewrite Et.
        exists 34%N. eexists. split; [reflexivity|]. split; [reflexivity | discriminate]. }
      rewrite (members_head n _ HH). cbn [app].
      pose proof (members_texts ((k, v) :: d) [] ts n r ltac:(discriminate) IH W Wn El ltac:(lia)) as M.
      exact (f_equal (fun o => match o with Some (l, r) => Some (VDict l, r) | None => None end) M).
  - contradiction.
Qed.

Lemma loads_dumps v t : wfj v -> dumps v = Ok t -> loads t = Ok v.
Proof.
  intros W E. unfold loads.
  pose proof (reads_all v t (2 * length t + 2) [] W E ltac:(lia) I) as R.
  rewrite app_nil_r in R. rewrite R. reflexivity.
Qed.

(** The hand-made lists of handler.py L301 and L792: "[" + ",".join(texts) + "]". *)
Lemma loads_array l ts :
  Forall wfj l -> mapM dumps l = Ok ts ->
  loads ([91%N] ++ join [44%N] ts ++ [93%N]) = Ok (VList l).
Proof.
  intros W E. unfold loads. cbn [app length].
  destruct l as [|v l].
  - cbn in E. injection E as <-. reflexivity.
  - match goal with |- context [value ?k _] => replace k with (S (2 * length (join [44%N] ts ++ [93%N]) + 3)) by lia end.
    rewrite elems_head.
    + rewrite (elems_texts [44%N] (v :: l) ts _ [] (or_introl eq_refl) ltac:(discriminate)); auto.
      * apply Forall_forall. intros. apply reads_all.
      * rewrite app_length. cbn. lia.
    + cbn [mapM] in E. destruct (dumps v) as [t|] eqn:Ev; [|discriminate]. cbn [bind] in E.
      destruct (mapM dumps l) as [ts'|]; [|discriminate]. injection E as <-.
      inversion W; subst.
      destruct (dumps_head v t H1 Ev) as (c & t' & -> & A & B & _).
      destruct (join_head [44%N] (c :: t') ts') as [w ->].
      exists c. eexists. split; [reflexivity|]. split; assumption.
Qed.

(** The text is printable ASCII. *)
Definition printable (c : N) : Prop := (32 <= c <= 126)%N.

Lemma hexdig_printable n : (n < 16)%N -> printable (hexdig n).
Proof. unfold printable, hexdig. intros H. destruct (N.ltb_spec n 10); lia. Qed.

Lemma uesc_printable n : (n < 65536)%N -> Forall printable (uesc n).
Proof.
  intros H. unfold uesc. 
  assert (A : (n / 4096 < 16)%N) by (apply N.div_lt_upper_bound; lia).
  assert (B : forall m, (m mod 16 < 16)%N) by (intros; apply N.mod_lt; lia).
  repeat (constructor; [first [apply hexdig_printable; auto | unfold printable; lia]|]). constructor.
Qed.

Lemma esc_printable c : scalar c -> Forall printable (esc_char c).
Proof.
  intros [H1 H2]. unfold esc_char.
  assert (P : forall x y, printable x -> printable y -> Forall printable [x; y])
    by (intros; constructor; [assumption|]; constructor; [assumption | constructor]).
  destruct (N.eqb_spec c 34); [apply P; unfold printable; lia|].
  destruct (N.eqb_spec c 92); [apply P; unfold printable; lia|].
  destruct (N.eqb_spec c 10); [apply P; unfold printable; lia|].
  destruct (N.eqb_spec c 13); [apply P; unfold printable; lia|].
  destruct (N.eqb_spec c 9); [apply P; unfold printable; lia|].
  destruct (N.eqb_spec c 12); [apply P; unfold printable; lia|].
  destruct (N.eqb_spec c 8); [apply P; unfold printable; lia|].
  destruct ((32 <=? c)%N && (c <=? 126)%N) eqn:E.
  - constructor; [unfold printable; lia | constructor].
  - destruct (N.ltb_spec c 65536); [apply uesc_printable; assumption|].
    assert (Hv : ((c - 65536) / 1024 < 1024)%N) by (apply N.div_lt_upper_bound; lia).
    assert (Hm : ((c - 65536) mod 1024 < 1024)%N) by (apply N.mod_lt; lia).
    apply Forall_app. split; apply uesc_printable; lia.
Qed.

Lemma dumps_str_printable s : Forall scalar s -> Forall printable (dumps_str s).
Proof.
  intros H. unfold dumps_str. apply Forall_app. split; [constructor; [unfold printable; lia | constructor]|].
  apply Forall_app. split; [|constructor; [unfold printable; lia | constructor]].
  induction H as [|c s Hc Hs IH]; [constructor|]. cbn [map concat]. apply Forall_app.
  split; [apply esc_printable, Hc | exact IH].
Qed.

Lemma join_printable sep l : Forall printable sep -> Forall (Forall printable) l -> Forall printable (join sep l).
Proof.
  intros Hs H. induction H as [|x l Hx Hl IH]; [constructor|].
  destruct l as [|y l]; [exact Hx|]. change (Forall printable (x ++ sep ++ join sep (y :: l))).
  apply Forall_app. split; [exact Hx|]. apply Forall_app. split; [exact Hs | exact IH].
Qed.

Lemma printable_lit s : forallb (fun c => (32 <=? c)%N && (c <=? 126)%N) s = true -> Forall printable s.
Proof.
  intros H. apply Forall_forall. intros c Hc. rewrite forallb_forall in H. specialize (H c Hc).
  unfold printable. lia.
Qed.

Lemma dumps_printable v : forall t, wfj v -> dumps v = Ok t -> Forall printable t.
Proof.
  assert (N0 : forall s, forallb num_char s = true -> Forall printable s).
  { intros s H. apply Forall_forall. intros c Hc. rewrite forallb_forall in H. specialize (H c Hc).
    unfold printable, num_char in *. lia. }
  induction v as [|b|z|q|s|l IH|d IH|] using jv_ind2; intros t W E; try discriminate.
  - injection E as <-. apply printable_lit. reflexivity.
  - destruct b; injection E as <-; apply printable_lit; reflexivity.
  - injection E as <-. apply N0. apply forallb_forall. intros c. apply num_char_int.
  - injection E as <-. apply N0. apply W.
  - injection E as <-. apply dumps_str_printable. exact W.
  - rewrite dumps_list in E. apply wfj_list in W.
    destruct (mapM dumps l) as [ts|] eqn:El; [|discriminate]. cbn [bind] in E.
    assert (Et : t = [91%N] ++ join (u ", ") ts ++ [93%N]) by (injection E; intros <-; reflexivity).
    rewrite Et. apply Forall_app. split; [apply printable_lit; reflexivity|].
    apply Forall_app. split; [|apply printable_lit; reflexivity].
    apply join_printable; [apply printable_lit; reflexivity|].
    clear E Et. revert ts El. induction l as [|x l IHl]; intros ts El.
    + injection El as <-. constructor.
    + cbn [mapM] in El. destruct (dumps x) as [tx|] eqn:Ex; [|discriminate]. cbn [bind] in El.
      destruct (mapM dumps l) as [tl|]; [|discriminate]. injection El as <-.
      inversion IH; inversion W; subst. constructor; [auto|]. apply IHl; auto.
  - rewrite dumps_dict in E. apply wfj_dict in W as [_ W].
    destruct (mapM item d) as [ts|] eqn:El; [|discriminate]. cbn [bind] in E.
    assert (Et : t = [123%N] ++ join (u ", ") ts ++ [125%N]) by (injection E; intros <-; reflexivity).
    rewrite Et. apply Forall_app. split; [apply printable_lit; reflexivity|].
    apply Forall_app. split; [|apply printable_lit; reflexivity].
    apply join_printable; [apply printable_lit; reflexivity|].
    clear E Et. revert ts El. induction d as [|[k x] d IHl]; intros ts El.
    + injection El as <-. constructor.
    + cbn [mapM] in El. destruct (item (k, x)) as [tx|] eqn:Ex; [|discriminate]. cbn [bind] in El.
      destruct (mapM item d) as [tl|]; [|discriminate]. injection El as <-.
      inversion IH; inversion W; subst. cbn [fst snd] in *. constructor; [|apply IHl; auto].
      unfold item in Ex. cbn [fst snd] in Ex. destruct (dumps x) as [t0|] eqn:E0; [|discriminate].
      cbn [bind] in Ex.
      assert (Et : tx = dumps_str k ++ u ": " ++ t0) by (injection Ex; intros <-; reflexivity).
      rewrite Et. apply Forall_app. split; [apply dumps_str_printable; tauto|].
      apply Forall_app. split; [apply printable_lit; reflexivity|]. apply H1; tauto.
Qed.

Lemma dumps_round_trip v : wfj v ->
  exists t, dumps v = Ok t /\ loads t = Ok v /\ Forall (fun c => (32 <= c <= 126)%N) t.
Proof.
  intros W. destruct (dumps_total v W) as [t E]. exists t. split; [exact E|].
  split; [apply loads_dumps; assumption | apply (dumps_printable v t W E)].
Qed.

(* Printed names: identifiers, never keywords, different for different names. *)
From Coq Require Import String Ascii Decimal DecimalString.
From Verif Require Import Base BaseFacts Lang Kernel Backends Text TextPrint TextParse TextLex.
Open Scope string_scope.
Open Scope Z_scope.
Open Scope list_scope.

Lemma digit_id c : is_digit c = true -> id_char c = true.
Proof. intros H. unfold id_char. now rewrite H, orb_true_r. Qed.
Lemma all_imp (p q : ascii -> bool) s : (forall c, p c = true -> q c = true) -> all_chars p s = true -> all_chars q s = true.
Proof. intros Hpq. induction s as [|c s IH]; cbn; auto. rewrite !andb_true_iff. intros []; auto. Qed.
Lemma decn_digits n : all_chars is_digit (decn n) = true.
Proof. unfold decn. apply number_dec. lia. Qed.
Lemma decn_id n : all_chars id_char (decn n) = true.
Proof. eapply all_imp; [apply digit_id|apply decn_digits]. Qed.
Lemma suffix_id p : all_chars id_char (split_suffix p) = true.
Proof. induction p as [|b p IH]; cbn; auto. destruct b; cbn; auto. Qed.
Lemma loopvar_id i pre : is_ident pre = true \/ pre = "" -> is_ident (loopvar_name i pre) = true.
Proof.
  intros H. unfold loopvar_name. destruct (i <? 8)%nat eqn:E.
  - apply Nat.ltb_lt in E. destruct H as [H| ->].
    + destruct pre as [|c pre]; [discriminate|]. cbn in H |- *. rewrite all_chars_app. apply andb_true_iff in H as [-> ->].
      do 8 (destruct i as [|i]; [reflexivity|]). lia.
    + do 8 (destruct i as [|i]; [reflexivity|]). lia.
  - destruct H as [H| ->].
    + destruct pre as [|c pre]; [discriminate|]. cbn in H |- *. rewrite all_chars_app. apply andb_true_iff in H as [-> ->]. cbn. apply decn_id.
    + cbn. apply decn_id.
Qed.
Lemma ident_app a b : is_ident a = true -> all_chars id_char b = true -> is_ident (a +++ b) = true.
Proof. destruct a as [|c a]; [discriminate|]. cbn. rewrite all_chars_app, !andb_true_iff. tauto. Qed.
Lemma pname_ident n : is_ident (pname n) = true.
Proof.
  destruct n as [|isb i|k| |red pos path]; cbn [pname]; try reflexivity.
  - destruct isb; (apply (ident_app _ _); [reflexivity|cbn; apply decn_id]).
  - apply (ident_app "tmp"); [reflexivity|apply decn_id].
  - apply ident_app; [|apply suffix_id]. apply loopvar_id. destruct red; auto.
Qed.

(* ------------------------------------------------------------------ shape of loop names: what follows the letter *)
Definition us_or_end (s : string) : bool := match s with EmptyString => true | String c _ => Ascii.eqb c "_" end.
Lemma suffix_us p : us_or_end (split_suffix p) = true.
Proof. destruct p as [|[] p]; reflexivity. Qed.
Definition d_or_us (s : string) : bool := match s with EmptyString => true | String c _ => Ascii.eqb c "_" || is_digit c end.
Lemma decn_cases n : exists c s, decn n = String c s /\ is_digit c = true.
Proof.
  destruct (number_dec (Z.of_nat n)) as (_ & H2 & H3); [lia|]. unfold decn. destruct (dec (Z.of_nat n)) as [|c s]; [congruence|]. cbn in H2. apply andb_true_iff in H2 as [H2 _]. eauto.
Qed.
(* a loop name is an optional r, one letter, digits or underscore *)
Lemma loop_shape red pos path : exists c s, mem_char c "ijklmnpqv" = true /\ d_or_us s = true /\
  pname (NLoop red pos path) = (if red then "r" else "") +++ String c s.
Proof.
  cbn [pname]. unfold loopvar_name. destruct (pos <? 8)%nat eqn:E.
  - apply Nat.ltb_lt in E. assert (HS := suffix_us path). set (sf := split_suffix path) in *.
    assert (HD : d_or_us sf = true) by (destruct sf; cbn in *; auto; now rewrite HS).
    do 8 (destruct pos as [|pos]; [eexists; exists sf; rewrite sapp_assoc; split; [|split; [exact HD|reflexivity]]; reflexivity|]). lia.
  - exists "v"%char, (decn pos +++ split_suffix path). rewrite sapp_assoc. repeat split. destruct (decn_cases pos) as (c & s & -> & Hc). cbn. now rewrite Hc, orb_true_r.
Qed.

Definition starts (c : ascii) (s : string) : bool := match s with String d _ => Ascii.eqb c d | EmptyString => false end.
(* words that no generated name can be *)
Definition second (s : string) : string := match s with String _ r => r | EmptyString => "" end.
(* a word that has the form of a generated name *)
Definition digits_only (s : string) : bool := negb (String.eqb s "") && all_chars is_digit s.
Definition after_pre (pre s : string) : string := substring (String.length pre) (String.length s) s.
Fixpoint begins (p s : string) : bool :=
  match p, s with EmptyString, _ => true | String a p', String b s' => Ascii.eqb a b && begins p' s' | _, EmptyString => false end.
Definition looks (s : string) : bool :=
  String.eqb s "out" || String.eqb s "acc" || begins "buf_" s || begins "fnc_" s ||
  (begins "tmp" s && d_or_us (after_pre "tmp" s)) ||
  (match s with
   | String c r => (mem_char c "ijklmnpqv" && d_or_us r) ||
                   (Ascii.eqb c "r" && match r with String d r' => mem_char d "ijklmnpqv" && d_or_us r' | EmptyString => false end)
   | EmptyString => false
   end).
Lemma substring_all s : forall n, (String.length s <= n)%nat -> substring 0 n s = s.
Proof. induction s as [|c s IH]; intros [|n] H; cbn in *; auto; [lia|]. now rewrite IH by lia. Qed.
Lemma pname_looks n : looks (pname n) = true.
Proof.
  destruct n as [|isb i|k| |red pos path]; try reflexivity.
  - destruct isb; cbn [pname]; unfold looks.
    + replace (begins "buf_" ("buf" +++ "_" +++ decn i)) with true by (cbn; reflexivity). now rewrite ?orb_true_r.
    + replace (begins "fnc_" ("fnc" +++ "_" +++ decn i)) with true by (cbn; reflexivity). now rewrite ?orb_true_r.
  - unfold looks. cbn [pname]. replace (begins "tmp" ("tmp" +++ decn k)) with true by reflexivity.
    replace (after_pre "tmp" ("tmp" +++ decn k)) with (decn k).
    + destruct (decn_cases k) as (c & s & -> & Hc). cbn [d_or_us]. rewrite Hc, orb_true_r. cbn [andb]. now rewrite ?orb_true_r.
    + unfold after_pre. cbn. rewrite substring_all; auto.
  - destruct (loop_shape red pos path) as (c & s & Hc & Hs & ->). unfold looks. destruct red; cbn [String.append].
    + rewrite Hc, Hs. cbn. now rewrite ?orb_true_r.
    + rewrite Hc, Hs. cbn [andb]. rewrite orb_true_l. now rewrite ?orb_true_r.
Qed.
Definition none_look (l : list string) : bool := forallb (fun s => negb (looks s)) l.
Lemma none_mem l n : none_look l = true -> mem (pname n) l = false.
Proof.
  unfold none_look. rewrite forallb_forall. intros H. destruct (mem (pname n) l) eqn:E; auto. unfold mem in E. apply existsb_exists in E as (s & Hs & E).
  apply String.eqb_eq in E. subst s. specialize (H _ Hs). now rewrite pname_looks in H.
Qed.
Lemma pname_py_kw n : mem (pname n) py_keywords = false.
Proof. now apply none_mem. Qed.
Lemma pname_c_kw n : mem (pname n) c_keywords = false.
Proof. now apply none_mem. Qed.

(* ------------------------------------------------------------------ different names print differently *)
Lemma decn_inj i j : decn i = decn j -> i = j.
Proof.
  unfold decn. intros H. destruct (number_dec (Z.of_nat i)) as (H1 & _); [lia|]. destruct (number_dec (Z.of_nat j)) as (H2 & _); [lia|].
  rewrite H, H2 in H1. injection H1. lia.
Qed.
Lemma digits_split a : forall b r s, all_chars is_digit a = true -> all_chars is_digit b = true -> us_or_end r = true -> us_or_end s = true ->
  a +++ r = b +++ s -> a = b /\ r = s.
Proof.
  assert (Hx : forall c a r s, is_digit c = true -> us_or_end s = true -> String c (a +++ r) = s -> False).
  { intros c x r s Hc Hs <-. cbn in Hs. apply Ascii.eqb_eq in Hs. subst c. discriminate. }
  induction a as [|c a IH]; intros [|d b] r s Ha Hb Hr Hs H; cbn in *; auto.
  - exfalso. apply andb_true_iff in Hb as [Hb _]. symmetry in H. exact (Hx _ _ _ _ Hb Hr H).
  - exfalso. apply andb_true_iff in Ha as [Ha _]. exact (Hx _ _ _ _ Ha Hs H).
  - injection H as -> H. apply andb_true_iff in Ha as [_ Ha]. apply andb_true_iff in Hb as [_ Hb]. destruct (IH _ _ _ Ha Hb Hr Hs H) as [-> ->]. auto.
Qed.
Lemma suffix_inj p : forall q, split_suffix p = split_suffix q -> p = q.
Proof.
  induction p as [|x p IH]; intros [|y q]; cbn; auto; try (destruct x; discriminate); try (destruct y; discriminate).
  destruct x, y; cbn; intros H; try discriminate; injection H as H; f_equal; auto.
Qed.
Lemma loop_inj i j p q : loopvar_name i "" +++ split_suffix p = loopvar_name j "" +++ split_suffix q -> i = j /\ p = q.
Proof.
  unfold loopvar_name. destruct (i <? 8)%nat eqn:Ei, (j <? 8)%nat eqn:Ej; cbn [String.append]; rewrite ?Nat.ltb_lt in *.
  - intros H. do 8 (destruct i as [|i]; [do 8 (destruct j as [|j]; [first [discriminate H|injection H as H; auto using suffix_inj]|]); lia|]). lia.
  - intros H. do 8 (destruct i as [|i]; [discriminate|]). lia.
  - intros H. do 8 (destruct j as [|j]; [discriminate|]). lia.
  - intros H. injection H as H. destruct (digits_split _ _ _ _ (decn_digits _) (decn_digits _) (suffix_us _) (suffix_us _) H) as [H1 H2]. split; [now apply decn_inj|now apply suffix_inj].
Qed.
Theorem pname_inj a b : pname a = pname b -> a = b.
Proof.
  assert (HL : forall c (s : string), mem_char c "ijklmnpqv" = true -> c <> "o"%char /\ c <> "b"%char /\ c <> "f"%char /\ c <> "t"%char /\ c <> "a"%char /\ c <> "r"%char).
  { intros c _ H. repeat split; intros ->; discriminate. }
  destruct a as [|x i|k| |red pos path], b as [|y j|k'| |red' pos' path']; intros H; auto;
    try (destruct x; discriminate H); try (destruct y; discriminate H); try discriminate H.
  all: try (destruct (loop_shape red' pos' path') as (c & s & Hc & Hs & E); rewrite E in H; destruct (HL c s Hc) as (? & ? & ? & ? & ? & ?);
            destruct red'; cbn in H; try (destruct x); try discriminate H; injection H; intros; subst; contradiction).
  all: try (destruct (loop_shape red pos path) as (c & s & Hc & Hs & E); rewrite E in H; destruct (HL c s Hc) as (? & ? & ? & ? & ? & ?);
            destruct red; cbn in H; try (destruct y); try discriminate H; injection H; intros; subst; contradiction).
  - destruct x, y; cbn in H; try discriminate H; injection H as H; now rewrite (decn_inj _ _ H).
  - cbn in H. injection H as H. now rewrite (decn_inj _ _ H).
  - destruct red, red'.
    + assert (HR : forall i p, pname (NLoop true i p) = String "r" (loopvar_name i "" +++ split_suffix p)) by reflexivity.
      rewrite !HR in H. injection H as H. destruct (loop_inj pos pos' path path') as [-> ->]; auto.
    + exfalso. destruct (loop_shape false pos' path') as (c & s & Hc & Hs & E). rewrite E in H. destruct (HL c s Hc) as (? & ? & ? & ? & ? & ?). cbn in H. injection H. intros; subst; congruence.
    + exfalso. destruct (loop_shape false pos path) as (c & s & Hc & Hs & E). rewrite E in H. destruct (HL c s Hc) as (? & ? & ? & ? & ? & ?). cbn in H. injection H. intros; subst; congruence.
    + destruct (loop_inj pos pos' path path') as [-> ->]; auto.
Qed.

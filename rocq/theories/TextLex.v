(* The tokens of printed expressions. *)
From Coq Require Import String Ascii Decimal DecimalString DecimalFacts DecimalZ.
From Verif Require Import Base BaseFacts Lang Kernel Backends Text TextPrint TextParse.
Open Scope string_scope.
Open Scope Z_scope.
Open Scope list_scope.

Lemma sapp_assoc a b c : (a +++ b) +++ c = a +++ (b +++ c).
Proof. induction a; cbn; auto. now rewrite IHa. Qed.
Lemma sapp_nil a : a +++ "" = a.
Proof. induction a; cbn; auto. now rewrite IHa. Qed.
Lemma omap_app {A} (a b : list A) o : option_map (app (a ++ b)) o = option_map (app a) (option_map (app b) o).
Proof. destruct o; cbn; auto. now rewrite app_assoc. Qed.
Lemma omap_nil {A} (o : option (list A)) : option_map (app []) o = o.
Proof. destruct o; reflexivity. Qed.

(* reading a fixed piece of text *)
Fixpoint scan (py : bool) (s : lst) (w : string) : option (list tok * lst) :=
  match w with
  | EmptyString => Some ([], s)
  | String c r => match step py s c with
                  | Some (ts, s') => match scan py s' r with Some (ts', s'') => Some (ts ++ ts', s'') | None => None end
                  | None => None
                  end
  end.
Lemma scan_lex py w : forall s ts s' r, scan py s w = Some (ts, s') -> lex py s (w +++ r) = option_map (app ts) (lex py s' r).
Proof.
  induction w as [|c w IH]; intros s ts s' r; cbn.
  - intros H; injection H as <- <-. now rewrite omap_nil.
  - destruct (step py s c) as [[t1 s1]|]; [|discriminate]. destruct (scan py s1 w) as [[t2 s2]|] eqn:E; [|discriminate].
    intros H; injection H as <- <-. rewrite (IH _ _ _ _ E). now rewrite omap_app.
Qed.

(* text after which a pending identifier or number ends *)
Definition delim (r : string) : bool := match r with EmptyString => true | String c _ => negb (id_char c || is_dot c) end.
Definition emits (py : bool) (w : string) (ts : list tok) : Prop :=
  forall r, delim r = true -> lex py L0 (w +++ r) = option_map (app ts) (lex py L0 r).
Definition emits_lit (py : bool) (w : string) (ts : list tok) : Prop :=
  forall r, lex py L0 (w +++ r) = option_map (app ts) (lex py L0 r).
Lemma lit_scan py w ts : scan py L0 w = Some (ts, L0) -> emits_lit py w ts.
Proof. intros H r. now apply scan_lex. Qed.
Lemma lit_emits py w ts : emits_lit py w ts -> emits py w ts.
Proof. intros H r _. apply H. Qed.
Lemma lit_then py w ts v us : emits_lit py w ts -> emits py v us -> emits py (w +++ v) (ts ++ us).
Proof. intros H1 H2 r Hr. rewrite sapp_assoc, H1, H2 by auto. now rewrite omap_app. Qed.
Lemma lit_lit py w ts v us : emits_lit py w ts -> emits_lit py v us -> emits_lit py (w +++ v) (ts ++ us).
Proof. intros H1 H2 r. rewrite sapp_assoc, H1, H2 by auto. now rewrite omap_app. Qed.
Lemma emits_then py w ts v us : emits py w ts -> (forall r, delim (v +++ r) = true) -> emits py v us -> emits py (w +++ v) (ts ++ us).
Proof. intros H1 Hd H2 r Hr. rewrite sapp_assoc, H1, H2 by auto. now rewrite omap_app. Qed.
Lemma emits_lit_then py w ts v us : emits py w ts -> (forall r, delim (v +++ r) = true) -> emits_lit py v us -> emits_lit py (w +++ v) (ts ++ us).
Proof. intros H1 Hd H2 r. rewrite sapp_assoc, H1, H2 by auto. now rewrite omap_app. Qed.
Lemma emits_nil py : emits_lit py "" [].
Proof. intros r. cbn. now rewrite omap_nil. Qed.

(* ------------------------------------------------------------------ identifiers *)
Definition is_ident (s : string) : bool := match s with String c r => id_start c && all_chars id_char r | EmptyString => false end.
Lemma all_chars_app p a b : all_chars p (a +++ b) = all_chars p a && all_chars p b.
Proof. induction a; cbn; auto. now rewrite IHa, andb_assoc. Qed.
Lemma restart_delim py s c : (exists a, s = LId a) \/ (exists a, s = LNum a) -> id_char c = false -> is_dot c = false ->
  step py s c = restart s c.
Proof.
  intros [[a ->]|[a ->]] H1 H2; cbn.
  - now rewrite H1.
  - unfold id_char in H1. apply orb_false_iff in H1 as [H1 H3]. now rewrite H3, H2, H1.
Qed.
Lemma lex_pending py s r ts : (exists a, s = LId a) \/ (exists a, s = LNum a) -> delim r = true -> flush s = Some ts ->
  lex py s r = option_map (app ts) (lex py L0 r).
Proof.
  intros Hs Hd Hf. destruct r as [|c r].
  - cbn [lex]. rewrite Hf. cbn. now rewrite app_nil_r.
  - cbn [delim] in Hd. apply negb_true_iff, orb_false_iff in Hd as [H1 H2]. cbn [lex]. rewrite restart_delim by auto.
    unfold restart. rewrite Hf. cbn [step]. destruct (start c) as [[t1 s1]|]; [|reflexivity]. now rewrite omap_app.
Qed.
Lemma lex_id py w : forall a r, all_chars id_char w = true -> lex py (LId a) (w +++ r) = lex py (LId (a +++ w)) r.
Proof.
  induction w as [|c w IH]; intros a r H; cbn; [now rewrite sapp_nil|]. apply andb_true_iff in H as [-> H2]. rewrite omap_nil, IH by auto.
  now rewrite sapp_assoc.
Qed.
Lemma start_id c : id_start c = true -> start c = Some ([], LId (str1 c)).
Proof.
  intros H. unfold start. rewrite H. unfold is_space, is_nl, is_digit, in_codes. unfold id_start, in_codes in H.
  rewrite !orb_true_iff, !andb_true_iff, !N.leb_le, N.eqb_eq in H.
  replace (code_of c =? 32)%N with false by (symmetry; apply N.eqb_neq; lia).
  replace (code_of c =? 10)%N with false by (symmetry; apply N.eqb_neq; lia).
  destruct ((48 <=? code_of c)%N && (code_of c <=? 57)%N) eqn:E; [|reflexivity]. rewrite andb_true_iff, !N.leb_le in E. lia.
Qed.
Lemma emits_id py w : is_ident w = true -> emits py w [TId w].
Proof.
  destruct w as [|c w]; [discriminate|]. cbn [is_ident]. intros H r Hr. apply andb_true_iff in H as [H1 H2]. cbn [String.append lex step]. rewrite start_id by auto.
  rewrite omap_nil, lex_id by auto. apply lex_pending; eauto.
Qed.

(* ------------------------------------------------------------------ numbers *)
Lemma start_digit c : is_digit c = true -> start c = Some ([], LNum (str1 c)).
Proof.
  intros H. unfold start. rewrite H. unfold is_space, is_nl. unfold is_digit, in_codes in H. rewrite !andb_true_iff, !N.leb_le in H.
  replace (code_of c =? 32)%N with false by (symmetry; apply N.eqb_neq; lia).
  now replace (code_of c =? 10)%N with false by (symmetry; apply N.eqb_neq; lia).
Qed.
Lemma lex_num py w : forall a r, all_chars is_digit w = true -> lex py (LNum a) (w +++ r) = lex py (LNum (a +++ w)) r.
Proof.
  induction w as [|c w IH]; intros a r H; cbn; [now rewrite sapp_nil|]. apply andb_true_iff in H as [-> H2]. cbn. rewrite omap_nil, IH by auto.
  now rewrite sapp_assoc.
Qed.
Lemma emits_num py w t : w <> "" -> all_chars is_digit w = true -> number w = Some t -> emits py w [t].
Proof.
  destruct w as [|c w]; [congruence|]. cbn [all_chars]. intros _ H Hn r Hr. apply andb_true_iff in H as [H1 H2]. cbn [String.append lex step]. rewrite start_digit by auto. rewrite omap_nil, lex_num by auto.
  apply lex_pending; eauto. change (str1 c +++ w) with (String c w). cbn [flush]. now rewrite Hn.
Qed.
Lemma uint_digits u : all_chars is_digit (NilEmpty.string_of_uint u) = true.
Proof. induction u; cbn; auto. Qed.
Lemma unorm_canonical u : unorm u = u -> canonical (NilEmpty.string_of_uint u) = true.
Proof.
  unfold unorm. destruct (nzhead u) eqn:E; intros <-; try reflexivity; cbn; try (destruct (NilEmpty.string_of_uint u0); reflexivity).
  exfalso. revert E. apply nzhead_nonzero.
Qed.
Lemma dec_pos p : dec (Zpos p) = NilEmpty.string_of_uint (Pos.to_uint p).
Proof. reflexivity. Qed.
Lemma dec_neg p : dec (Zneg p) = "-" +++ dec (Zpos p).
Proof. reflexivity. Qed.
Lemma pos_unorm p : unorm (Pos.to_uint p) = Pos.to_uint p.
Proof.
  assert (H : norm (Z.to_int (Zpos p)) = Z.to_int (Zpos p)) by (rewrite <- to_of; now rewrite of_to).
  change (Pos (unorm (Pos.to_uint p)) = Pos (Pos.to_uint p)) in H. congruence.
Qed.
Lemma number_dec z : 0 <= z -> number (dec z) = Some (TNum z) /\ all_chars is_digit (dec z) = true /\ dec z <> "".
Proof.
  destruct z as [|p|p]; intros Hz; [repeat split; discriminate| |lia]. rewrite dec_pos. unfold number. rewrite NilEmpty.usu, unorm_canonical by apply pos_unorm.
  split; [|split; [apply uint_digits|]].
  - do 2 f_equal. change (Z.of_uint (Pos.to_uint p)) with (Z.of_int (Z.to_int (Zpos p))). apply of_to.
  - assert (Hp := pos_unorm p). intros E. destruct (Pos.to_uint p); cbn in E; try discriminate; discriminate.
Qed.
(* a negative literal is a minus sign and a number *)
Definition toks_int (z : Z) : list tok := if z <? 0 then [TOp "-"; TNum (- z)] else [TNum z].
Lemma two_minus c : is_digit c = true -> two "-" c = false.
Proof. destruct c as [b0 b1 b2 b3 b4 b5 b6 b7]; destruct b0, b1, b2, b3, b4, b5, b6, b7; vm_compute; congruence. Qed.
Lemma emits_dec py z : emits py (dec z) (toks_int z).
Proof.
  unfold toks_int. destruct (z <? 0) eqn:E.
  - destruct z as [|p|p]; try discriminate. rewrite dec_neg. cbn [Z.opp].
    destruct (number_dec (Zpos p)) as (H1 & H2 & H3); [lia|]. assert (HE := emits_num py _ _ H3 H2 H1). intros r Hr.
    destruct (dec (Zpos p)) as [|c w]; [congruence|]. cbn in H2. apply andb_true_iff in H2 as [H2 _].
    specialize (HE r Hr). cbn [String.append lex step] in HE |- *. change (start "-") with (Some (@nil tok, LOp "-")). cbn beta iota. rewrite omap_nil.
    cbn [lex step]. rewrite two_minus by auto. unfold restart. cbn [flush]. rewrite (start_digit c) in HE |- * by auto. rewrite omap_nil in HE. rewrite app_nil_r, HE.
    now rewrite <- omap_app.
  - apply Z.ltb_ge in E. destruct (number_dec z E) as (H1 & H2 & H3). now apply emits_num.
Qed.

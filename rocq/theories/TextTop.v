(* Every generated source text is read back as the intended program. *)
From Coq Require Import String Ascii Decimal DecimalString.
From Verif Require Import Base BaseFacts Util Lang Spec Graph Algo AlgoSem Kernel Sched Codegen Backends Text TextPrint TextParse TextLex TextName TextExpr TextStmt TextRead TextMono.
Open Scope string_scope.
Open Scope Z_scope.
Open Scope list_scope.

(* ------------------------------------------------------------------ the header *)
Fixpoint joint (l : list (list tok)) : list tok := match l with [] => [] | [x] => x | x :: r => x ++ TOp "," :: joint r end.
Lemma join_emits b ws tss : Forall2 (emits (is_py b)) ws tss -> emits (is_py b) (join ", " ws) (joint tss).
Proof.
  induction 1 as [|w ts ws tss H HF IH]; [apply lit_emits, emits_nil|]. destruct HF as [|w' ts' ws' tss' H' HF]; [exact H|].
  change (join ", " (w :: w' :: ws')) with (w +++ ", " +++ join ", " (w' :: ws')). change (joint (ts :: ts' :: tss')) with (ts ++ ([TOp ","] ++ joint (ts' :: tss'))).
  apply emits_then; auto. apply lit_then; auto. destruct b; lit.
Qed.
Definition param_toks (b : backend) (p : name * dtype) : list tok := if is_py b then [TId (pname (fst p))] else [TId (typename (snd p)); TOp "*"; TId (pname (fst p))].
Definition header_toks (b : backend) (kname : string) (ps : list (name * dtype)) : list tok :=
  match b with
  | Python => [TId "def"; TId kname; TOp "("] ++ joint (map (param_toks b) ps) ++ [TOp ")"; TOp ":"]
  | Clang => [TId "void"; TId kname; TOp "("] ++ joint (map (param_toks b) ps) ++ [TOp ")"; TOp "{"]
  | CUDA => [TId "extern"; TStr "C"; TId "__global__"; TId "void"; TId kname; TOp "("] ++ joint (map (param_toks b) ps) ++ [TOp ")"; TOp "{"]
  end.
Lemma typed_emits b ps : is_py b = false ->
  Forall2 (emits (is_py b)) (typed_args (map (fun p => pname (fst p)) ps) (map snd ps)) (map (param_toks b) ps).
Proof.
  intros Hb. unfold param_toks. rewrite Hb. induction ps as [|[n dt] ps IH]; cbn [map typed_args fst snd]; constructor; auto.
  change [TId (typename dt); TOp "*"; TId (pname n)] with ([TId (typename dt)] ++ ([TOp "*"] ++ [TId (pname n)])).
  apply emits_then; [apply emits_id, typename_ident|reflexivity|]. apply lit_then; [lit|]. apply emits_id, pname_ident.
Qed.
Lemma names_emits ps : Forall2 (emits true) (map (fun p : name * dtype => pname (fst p)) ps) (map (param_toks Python) ps).
Proof. induction ps as [|[n dt] ps IH]; cbn [map]; constructor; auto. apply emits_id, pname_ident. Qed.
Lemma header_lex b kname ps : is_ident kname = true ->
  lines_ok b [kern_start b kname (map (fun p => pname (fst p)) ps) (map snd ps)] (bol b 0 ++ header_toks b kname ps).
Proof.
  intros Hk. assert (HL : forall w ts, headok w = true -> emits (is_py b) w ts -> lines_ok b [w] (bol b 0 ++ ts)) by (intros w ts; exact (line_lex b 0 w ts)). apply HL.
  - destruct b; reflexivity.
  - destruct b; cbn [kern_start header_toks].
    + apply (lit_then _ "def " [TId "def"] _ ([TId kname] ++ ([TOp "("] ++ (joint (map (param_toks Python) ps) ++ [TOp ")"; TOp ":"])))); [lit|].
      apply emits_then; [now apply emits_id|reflexivity|]. apply lit_then; [lit|]. apply lit_emits, emits_lit_then; [|reflexivity|lit]. apply (join_emits Python), names_emits.
    + apply (lit_then _ "void " [TId "void"] _ ([TId kname] ++ ([TOp "("] ++ (joint (map (param_toks Clang) ps) ++ [TOp ")"; TOp "{"])))); [lit|].
      apply emits_then; [now apply emits_id|reflexivity|]. apply lit_then; [lit|]. apply lit_emits, emits_lit_then; [|reflexivity|lit]. apply (join_emits Clang). now apply typed_emits.
    + unfold quote. apply (lit_then _ ("extern " +++ String (ascii_of_nat 34) "" +++ "C" +++ String (ascii_of_nat 34) "" +++ " __global__ void ") [TId "extern"; TStr "C"; TId "__global__"; TId "void"] _
        ([TId kname] ++ ([TOp "("] ++ (joint (map (param_toks CUDA) ps) ++ [TOp ")"; TOp "{"])))); [lit|].
      apply emits_then; [now apply emits_id|reflexivity|]. apply lit_then; [lit|]. apply lit_emits, emits_lit_then; [|reflexivity|lit]. apply (join_emits CUDA). now apply typed_emits.
Qed.
Definition lib_toks (b : backend) : list tok := if is_py b then [TInd 0; TId "import"; TId "math"] else map TDir (libs_tree b).
Lemma libs_lex b : lines_ok b (map (import_lib b) (default_library b)) (lib_toks b).
Proof.
  destruct b.
  - apply (line_lex Python 0 "import math" [TId "import"; TId "math"]); [reflexivity|]. intros r Hr. cbn [is_py].
    rewrite (scan_lex true "import math" L0 [TId "import"] (LId "math") r) by (vm_compute; reflexivity). rewrite (lex_pending true (LId "math") r [TId "math"]); eauto.
    now rewrite <- omap_app.
  - apply (lines_ok_cons Clang "#include <stdint.h>" [TDir "#include <stdint.h>"] ["#include <math.h>"] [TDir "#include <math.h>"]); apply (dir_lex Clang 0); reflexivity.
  - apply (lines_ok_cons CUDA "#include <stdint.h>" [TDir "#include <stdint.h>"] ["#include <math.h>"] [TDir "#include <math.h>"]); apply (dir_lex CUDA 0); reflexivity.
Qed.
Definition all_toks (b : backend) (kname : string) (kern : kernel) : list tok :=
  lib_toks b ++ (bol b 0 ++ header_toks b kname (k_params kern)) ++ ctoks b 1 (k_body kern) ++ end_toks b.
Theorem kernel_lex b kname kern : is_ident kname = true -> lex (is_py b) (LBol 0) (kernel_text b kname kern) = Some (all_toks b kname kern).
Proof.
  intros Hk. unfold kernel_text, kernel_lines, all_toks.
  replace (map (import_lib b) (default_library b) ++ kern_start b kname (map (fun p => pname (fst p)) (k_params kern)) (map snd (k_params kern)) :: cprint b 1 (k_body kern) ++ [kern_end b])
    with ((map (import_lib b) (default_library b) ++ kern_start b kname (map (fun p => pname (fst p)) (k_params kern)) (map snd (k_params kern)) :: cprint b 1 (k_body kern)) ++ [kern_end b])
    by (rewrite <- app_assoc; reflexivity).
  rewrite join_lines.
  assert (HL := lines_ok_app b _ _ _ _ (libs_lex b) (lines_ok_cons b _ _ _ _ (header_lex b kname (k_params kern) Hk) (cprint_lex b (k_body kern) 1))).
  rewrite (HL (kern_end b)). assert (HE : lex (is_py b) (LBol 0) (kern_end b) = Some (end_toks b)) by (destruct b; reflexivity). rewrite HE. cbn [option_map]. now rewrite <- !app_assoc.
Qed.

(* ------------------------------------------------------------------ the whole source *)
Lemma c_params_ok b ps r : is_py b = false -> ps <> [] ->
  ev (fun n => c_params n (joint (map (param_toks b) ps) ++ TOp ")" :: r) = Some (map (param_tree b) ps, r)).
Proof.
  intros Hb. unfold param_toks, param_tree. rewrite Hb. induction ps as [|[n dt] ps IH]; [congruence|]. intros _. destruct ps as [|p ps].
  - cbn [map joint fst snd app]. apply ev_one. intros m. cbn [c_params].
    assert (Ht : mem (typename dt) c_types = true) by (destruct dt; reflexivity). rewrite Ht. sane. rewrite pn_id. reflexivity.
  - assert (IH' := IH ltac:(discriminate)). eapply ev_step; [|exact IH']. intros m E.
    change (joint (map (fun q : name * dtype => [TId (typename (snd q)); TOp "*"; TId (pname (fst q))]) ((n, dt) :: p :: ps))) with
      ([TId (typename dt); TOp "*"; TId (pname n)] ++ TOp "," :: joint (map (fun q : name * dtype => [TId (typename (snd q)); TOp "*"; TId (pname (fst q))]) (p :: ps))).
    rewrite <- app_assoc. cbn [app c_params]. assert (Ht : mem (typename dt) c_types = true) by (destruct dt; reflexivity). rewrite Ht. sane. rewrite pn_id. sane. rewrite E. reflexivity.
Qed.
Lemma py_params_ok ps r : ps <> [] ->
  ev (fun n => py_params n (joint (map (param_toks Python) ps) ++ TOp ")" :: r) = Some (map (param_tree Python) ps, r)).
Proof.
  induction ps as [|[n dt] ps IH]; [congruence|]. intros _. destruct ps as [|p ps].
  - cbn [map joint fst snd app]. apply ev_one. intros m. cbn [py_params param_toks is_py fst app]. rewrite ppn_id. reflexivity.
  - assert (IH' := IH ltac:(discriminate)). eapply ev_step; [|exact IH']. intros m E.
    change (joint (map (param_toks Python) ((n, dt) :: p :: ps))) with ([TId (pname n)] ++ TOp "," :: joint (map (param_toks Python) (p :: ps))).
    rewrite <- app_assoc. cbn [app py_params]. rewrite ppn_id. sane. rewrite E. reflexivity.
Qed.
Lemma c_libs_ok b r : is_py b = false -> match r with TDir _ :: _ => False | _ => True end -> c_libs (lib_toks b ++ r) = (libs_tree b, r).
Proof. intros Hb Hr. unfold lib_toks, libs_tree. rewrite Hb. cbn [map app c_libs]. destruct r as [|[] r]; try contradiction; reflexivity. Qed.
Definition kname_ok (b : backend) (s : string) : Prop := is_ident s = true /\ mem s (kws b) = false.
Theorem kernel_reads b kname kern : kname_ok b kname -> k_params kern <> [] -> cwf b (k_body kern) = true -> k_body kern <> CNil ->
  reads b (kernel_text b kname kern) (source_of b kname kern).
Proof.
  intros [Hi Hk] Hp Hw Hn. unfold reads. assert (HL := kernel_lex b kname kern Hi).
  assert (HC : forall bb, b = bb -> is_py bb = false -> c_reads (kernel_text b kname kern) (source_of b kname kern)).
  { intros bb <- Hb. rewrite Hb in HL. assert (Hkw : mem kname c_keywords = false) by (unfold kws in Hk; now rewrite Hb in Hk).
    assert (HB := c_reads_code b Hb (k_body kern) Hw 1 []). assert (HB' := block_of _ _ _ HB).
    assert (HP := c_params_ok b (k_params kern) (TOp "{" :: ctoks b 1 (k_body kern) ++ [TOp "}"]) Hb Hp).
    destruct (ev_and _ _ HB' HP) as [n0 H]. destruct (H n0 (le_n _)) as [E1 E2]. exists n0, (all_toks b kname kern). split; auto.
    unfold c_source, all_toks. rewrite c_libs_ok; auto; [|unfold bol; rewrite Hb; destruct b; cbn; tauto].
    unfold bol, end_toks. rewrite Hb. cbn [app].
    assert (HH : forall pre, header_toks b kname (k_params kern) = pre ++ [TId "void"; TId kname; TOp "("] ++ joint (map (param_toks b) (k_params kern)) ++ [TOp ")"; TOp "{"] ->
      c_attr (header_toks b kname (k_params kern) ++ ctoks b 1 (k_body kern) ++ [TOp "}"]) =
      (attr_tree b, ([TId "void"; TId kname; TOp "("] ++ joint (map (param_toks b) (k_params kern)) ++ [TOp ")"; TOp "{"]) ++ ctoks b 1 (k_body kern) ++ [TOp "}"]) ->
      (let (attr, r) := c_attr (header_toks b kname (k_params kern) ++ ctoks b 1 (k_body kern) ++ [TOp "}"]) in
       do r <- eat_id "void" r; do (f, r) <- ident c_keywords r; do r <- eat "(" r; do (ps, r) <- c_params n0 r; do (body, r) <- c_block n0 r;
       match r with [] => Some (mkSrc (libs_tree b) attr f ps body) | _ => None end) = Some (source_of b kname kern)).
    { intros pre _ ->. rewrite <- !app_assoc. sane. unfold ident. rewrite Hkw. sane. cbn [app] in E2. rewrite E2. sane. rewrite E1. reflexivity. }
    destruct b; [discriminate| |]; (eapply HH; [|reflexivity]); cbn [header_toks]; [instantiate (1 := [])|instantiate (1 := [TId "extern"; TStr "C"; TId "__global__"])]; reflexivity. }
  destruct b; [|exact (HC _ eq_refl eq_refl)|exact (HC _ eq_refl eq_refl)]. cbn [is_py] in *.
  assert (HB := suite_of 0 (k_body kern) _ [] Hn I (py_reads_code (k_body kern) Hw 1 [] I)). rewrite app_nil_r in HB.
  assert (HP := py_params_ok (k_params kern) (TOp ":" :: ctoks Python 1 (k_body kern)) Hp).
  destruct (ev_and _ _ HB HP) as [n0 H]. destruct (H (S (S n0)) ltac:(lia)) as [E1 E2]. exists (S (S n0)), (all_toks Python kname kern). split; auto.
  unfold py_source, all_toks. cbn [lib_toks is_py bol end_toks header_toks app]. rewrite app_nil_r. cbn [py_libs]. change (String.eqb "import" "import") with true. cbn [eol andb].
  cbn [py_libs]. change (String.eqb "def" "import") with false. cbn [andb]. change (4 * 0)%nat with 0%nat. cbv iota. sane. unfold ident. change (mem kname (kws Python)) with (mem kname py_keywords) in Hk.
  rewrite Hk. sane. rewrite <- app_assoc. cbn [app]. rewrite E2. sane. change (4 * 0)%nat with 0%nat in E1. rewrite E1. reflexivity.
Qed.

(* ------------------------------------------------------------------ generated kernels are well formed *)
Section Gen.
Context (b : backend) (g : graph) (E : fenv) (inputs : list arg).
Definition isval (v : kx) : Prop := forall lvl, fitsp b lvl v = true.
Lemma mul_S : prec b BMul = S (prec b BAdd).
Proof. unfold prec. destruct (is_py b); reflexivity. Qed.
Definition term_ok (t : kx) : Prop := fitsp b (prec b BMul) t = true.
Lemma val_mul v z : isval v -> term_ok (KBin BMul v (KInt z)).
Proof.
  intros Hv. unfold term_ok. assert (Hp : paren b BMul = false) by (destruct b; reflexivity). cbn [fitsp]. rewrite Hp, Hv.
  rewrite Nat.leb_refl. reflexivity.
Qed.
Lemma sum_fold ts : forall a, fitsp b (prec b BAdd) a = true -> Forall term_ok ts -> fitsp b (prec b BAdd) (fold_left (fun x y => KBin BAdd x y) ts a) = true.
Proof.
  induction ts as [|t ts IH]; intros a Ha HF; cbn; auto. inversion HF; subst. apply IH; auto.
  assert (Hp : paren b BAdd = false) by (destruct b; reflexivity). assert (Hc : is_py b && comparison BAdd = false) by (destruct b; reflexivity).
  cbn [fitsp]. rewrite Hp, Hc, Ha, Nat.leb_refl. unfold term_ok in *. rewrite mul_S in *. auto.
Qed.
Lemma fits_le e : forall l m, (l <= m)%nat -> fitsp b m e = true -> fitsp b l e = true.
Proof.
  intros l m Hl. destruct e; cbn [fitsp]; auto. destruct b0; auto; rewrite !andb_true_iff, !orb_true_iff, !Nat.leb_le; intros [[[H|H] H2] H3]; repeat split; auto; right; lia.
Qed.
Lemma sum_ok ts : Forall term_ok ts -> fitsp b 0 (sum_kx ts) = true.
Proof.
  destruct ts as [|t ts]; intros HF; [reflexivity|]. inversion HF; subst. apply (fits_le _ 0 (prec b BAdd)); [lia|]. cbn [sum_kx]. apply sum_fold; auto.
  eapply fits_le; [|exact H1]. rewrite mul_S. lia.
Qed.
Lemma idx_val a i : fitsp b 0 i = true -> isval (KIdx a i).
Proof. intros H lvl. exact H. Qed.
Lemma arr_ok sh vs : Forall isval vs -> fitsp b 0 (arr_idx_calc sh vs) = true.
Proof.
  intros HV. unfold arr_idx_calc. destruct sh; [reflexivity|]. apply sum_ok. apply Forall_forall. intros t Ht. apply in_map_iff in Ht as ([n st] & <- & Hin).
  apply in_combine_l in Hin. rewrite Forall_forall in HV. apply val_mul; auto.
Qed.
Lemma buf_ok off st vs : Forall isval vs -> fitsp b 0 (buf_idx_calc off st vs) = true.
Proof.
  intros HV. unfold buf_idx_calc. apply sum_ok. constructor; [reflexivity|]. apply Forall_forall. intros t Ht. apply in_map_iff in Ht as ([n s] & <- & Hin).
  apply filter_In in Hin as [Hin _]. apply in_combine_l in Hin. rewrite Forall_forall in HV. apply val_mul; auto.
Qed.
Lemma cwf_capp x y : cwf b x = true -> cwf b y = true -> cwf b (capp x y) = true.
Proof. induction x; cbn [capp cwf]; auto; rewrite ?andb_true_iff; intuition auto. Qed.
Lemma capp_nonnil x y : y <> CNil -> capp x y <> CNil.
Proof. destruct x; cbn; auto; discriminate. Qed.
Lemma nonnil_b (c : code) : c <> CNil -> negb (match c with CNil => true | _ => false end) = true.
Proof. intros H. destruct c; try reflexivity. congruence. Qed.
Lemma val_bin o v w : isval v -> isval w -> fitsp b 0 (KBin o v w) = true.
Proof. intros Hv Hw. destruct o; cbn [fitsp]; rewrite Hv, Hw, ?orb_true_r; reflexivity. Qed.
Theorem render_wf e : forall dt k c v k1, render g E inputs e dt k = Done (c, v, k1) -> cwf b c = true /\ isval v.
Proof.
  assert (HName : forall n, isval (KName n)) by (intros n lvl; reflexivity).
  induction e using expr_ind'; intros dt k c v k1; cbn [render].
  - intros H; injection H as <- <- <-. split; [reflexivity|intros lvl; reflexivity].
  - intros H; injection H as <- <- <-. split; [reflexivity|intros lvl; reflexivity].
  - destruct (render g E inputs e1 dt k) as [[[c1 v1] k2]|] eqn:E1; [|discriminate]. cbn [obind]. destruct (render g E inputs e2 dt k2) as [[[c2 v2] k3]|] eqn:E2; [|discriminate]. cbn [obind].
    intros H; injection H as <- <- <-. destruct (IHe1 _ _ _ _ _ E1). destruct (IHe2 _ _ _ _ _ E2). split; auto. apply cwf_capp; auto. apply cwf_capp; auto. cbn [cwf]. now rewrite val_bin.
  - destruct (render g E inputs e dt k) as [[[c1 v1] k2]|] eqn:E1; [|discriminate]. cbn [obind]. intros H; injection H as <- <- <-. destruct (IHe _ _ _ _ _ E1) as [H1 H2]. split; auto. apply cwf_capp; auto.
    cbn [cwf fitsp]. now rewrite H2.
  - destruct (render g E inputs e1 Int64 (S k)) as [[[c1 v1] k2]|] eqn:E1; [|discriminate]. cbn [obind]. destruct (render g E inputs e2 dt k2) as [[[c2 v2] k3]|] eqn:E2; [|discriminate]. cbn [obind].
    destruct (render g E inputs e3 dt k3) as [[[c3 v3] k4]|] eqn:E3; [|discriminate]. cbn [obind]. intros H; injection H as <- <- <-.
    destruct (IHe1 _ _ _ _ _ E1) as [A1 A2]. destruct (IHe2 _ _ _ _ _ E2) as [B1 B2]. destruct (IHe3 _ _ _ _ _ E3) as [C1 C2]. split; auto. cbn [cwf].
    rewrite (cwf_capp c1); auto; [destruct (is_int dt); reflexivity|]. cbn [cwf]. rewrite A2, !cwf_capp, nonnil_b; auto; try (apply capp_nonnil; discriminate); cbn [cwf]; rewrite ?B2, ?C2; auto.
  - destruct (render g E inputs e dt k) as [[[c1 v1] k2]|] eqn:E1; [|discriminate]. cbn [obind]. intros H; injection H as <- <- <-. destruct (IHe _ _ _ _ _ E1) as [H1 H2]. split; auto. cbn [cwf fitsp andb].
    assert (HB : cwf b (capp c1 (CAssign NAcc (KBin BAdd (KName NAcc) v1) CNil)) = true /\ capp c1 (CAssign NAcc (KBin BAdd (KName NAcc) v1) CNil) <> CNil).
    { split; [|apply capp_nonnil; discriminate]. apply cwf_capp; auto. cbn [cwf]. rewrite val_bin; auto. }
    revert HB. generalize (capp c1 (CAssign NAcc (KBin BAdd (KName NAcc) v1) CNil)). intros body HB.
    assert (HR : cwf b (fold_right (fun l body => CFor (lname l) (l_ext l) XSeq body CNil) body red) = true /\ fold_right (fun l body => CFor (lname l) (l_ext l) XSeq body CNil) body red <> CNil).
    { induction red as [|l red IH]; cbn [fold_right]; auto. destruct IH as [I1 I2]. split; [|discriminate]. cbn [cwf]. now rewrite I1, nonnil_b. }
    apply HR.
  - destruct (arg_name inputs (AFnc f)) as [nm|]; [|discriminate]. cbn [obind]. destruct (throw_none InternalErr (E f)) as [fd|]; [|discriminate]. cbn [obind]. fold (many_r g E inputs).
    assert (HM : forall k c vs k1, many_r g E inputs idx k = Done (c, vs, k1) -> cwf b c = true /\ Forall isval vs).
    { clear - H. induction H as [|x l Hx _ IH]; intros k c vs k1; cbn [many_r].
      - intros H0; injection H0 as <- <- <-. auto.
      - destruct (render g E inputs x Int64 k) as [[[c1 v1] k2]|] eqn:E1; [|discriminate]. cbn [obind]. destruct (many_r g E inputs l k2) as [[[c2 v2] k3]|] eqn:E2; [|discriminate]. cbn [obind].
        intros H0; injection H0 as <- <- <-. destruct (Hx _ _ _ _ _ E1). destruct (IH _ _ _ _ E2). split; auto using cwf_capp. }
    destruct (many_r g E inputs idx k) as [[[c1 vs] k2]|] eqn:Em; [|discriminate]. cbn [obind]. intros H0; injection H0 as <- <- <-. destruct (HM _ _ _ _ Em). split; auto. apply idx_val, arr_ok; auto.
  - destruct (arg_name inputs (ABuf n)) as [nm|]; [|discriminate]. cbn [obind]. destruct (get g n) as [nd|]; [|discriminate]. cbn [obind]. fold (many_r g E inputs).
    assert (HM : forall k c vs k1, many_r g E inputs idx k = Done (c, vs, k1) -> cwf b c = true /\ Forall isval vs).
    { clear - H. induction H as [|x l Hx _ IH]; intros k c vs k1; cbn [many_r].
      - intros H0; injection H0 as <- <- <-. auto.
      - destruct (render g E inputs x Int64 k) as [[[c1 v1] k2]|] eqn:E1; [|discriminate]. cbn [obind]. destruct (many_r g E inputs l k2) as [[[c2 v2] k3]|] eqn:E2; [|discriminate]. cbn [obind].
        intros H0; injection H0 as <- <- <-. destruct (Hx _ _ _ _ _ E1). destruct (IH _ _ _ _ E2). split; auto using cwf_capp. }
    destruct (many_r g E inputs idx k) as [[[c1 vs] k2]|] eqn:Em; [|discriminate]. cbn [obind]. intros H0; injection H0 as <- <- <-. destruct (HM _ _ _ _ Em). split; auto. apply idx_val, buf_ok; auto.
Qed.
Lemma loops_wf loops inner : cwf b inner = true -> inner <> CNil -> cwf b (render_loops loops inner) = true /\ render_loops loops inner <> CNil.
Proof.
  intros H1 H2. induction loops as [|l r [I1 I2]]; cbn [render_loops]; auto. destruct (is_spatial l); auto.
  destruct (ls_exec l); (split; [|discriminate]); cbn [cwf]; rewrite ?I1, ?nonnil_b; auto.
Qed.
Lemma splits_wf sps : cwf b (render_splits sps) = true.
Proof.
  induction sps as [|sp r IH]; cbn [render_splits cwf]; auto. rewrite IH. assert (HA : paren b BAdd = false /\ paren b BMul = false) by (destruct b; split; reflexivity). destruct HA as [HA HM].
  assert (HC : is_py b && comparison BAdd = false /\ is_py b && comparison BMul = false) by (destruct b; split; reflexivity). destruct HC as [C1 C2].
  cbn [fitsp]. rewrite HA, HM, ?C1. cbn. rewrite !andb_true_r. rewrite mul_S. apply Nat.leb_le. lia.
Qed.
Lemma guards_wf sps : cwf b (render_guards sps) = true.
Proof.
  induction sps as [|sp r IH]; cbn [render_guards cwf]; auto. destruct (sp_guard sp); auto. cbn [cwf]. rewrite IH, val_bin; auto; intros lvl; reflexivity.
Qed.
Theorem codegen_wf f sc k kern k1 : codegen g E inputs f sc k = Done (kern, k1) -> k_params kern <> [] /\ cwf b (k_body kern) = true /\ k_body kern <> CNil.
Proof.
  unfold codegen. destruct (arg_params g E inputs 0) as [ps|]; [|discriminate]. cbn [obind]. destruct (render g E inputs (f_expr f) (f_dtype f) k) as [[[c v] k2]|] eqn:Er; [|discriminate]. cbn [obind].
  intros H; injection H as <- <-. cbn [k_params k_body]. split; [discriminate|]. destruct (render_wf _ _ _ _ _ _ Er) as [H1 H2]. apply loops_wf.
  - apply cwf_capp; [apply splits_wf|]. apply cwf_capp; [apply guards_wf|]. apply cwf_capp; auto. cbn [cwf]. rewrite H2, arr_ok; auto. apply Forall_forall. intros x Hx. apply in_map_iff in Hx as (l & <- & _). intros lvl; reflexivity.
  - apply capp_nonnil, capp_nonnil, capp_nonnil. discriminate.
Qed.
Theorem text_reads kname f sc k text k1 : kname_ok b kname -> t_codegen b g E kname inputs f sc k = Done (text, k1) ->
  exists kern, codegen g E inputs f sc k = Done (kern, k1) /\ reads b text (source_of b kname kern) /\ forall p, reads b text p -> p = source_of b kname kern.
Proof.
  intros Hk HT. destruct (handled b (s_loops sc)) eqn:HH.
  - rewrite (t_codegen_eq b g E inputs kname f sc k HH) in HT. destruct (codegen g E inputs f sc k) as [[kern k2]|] eqn:Ec; [|discriminate]. cbn [obind] in HT. injection HT as <- <-.
    exists kern. split; auto. destruct (codegen_wf _ _ _ _ _ Ec) as (H1 & H2 & H3). assert (HR := kernel_reads b kname kern Hk H1 H2 H3). split; auto. intros p Hp. eapply reads_unique; eauto.
  - rewrite (t_codegen_no b g E inputs kname f sc k HH) in HT. destruct (arg_params g E inputs 0); discriminate.
Qed.
End Gen.

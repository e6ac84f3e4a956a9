(* The string-level generator (Text.v) writes exactly the printed form of the kernel of Codegen.v. *)
From Coq Require Import String Ascii.
From Verif Require Import Base BaseFacts Util Lang Spec Graph Algo AlgoSem Kernel Sched Codegen Backends Text.
Open Scope string_scope.
Open Scope Z_scope.
Open Scope list_scope.

(* printed form of an expression *)
Fixpoint kprint (b : backend) (e : kx) : string :=
  match e with
  | KName n => pname n
  | KInt z => dec z
  | KFlt0 => "0.0"
  | KBin o l r => t_bin b o (kprint b l) (kprint b r)
  | KUn u x => t_un b u (kprint b x)
  | KIdx a i => index (pname a) (kprint b i)
  end.
Definition line (ind : nat) (s : string) : string := times ind indent_str +++ s.
Definition pragma (b : backend) (x : lexec) : list string :=
  match b, x with
  | Clang, XPar => ["#pragma omp parallel for"]
  | Clang, XVec => ["#pragma clang loop vectorize(enable)"]
  | Clang, XUnroll f => ["#pragma clang loop unroll_count(" +++ dec f +++ ")"]
  | CUDA, XUnroll f => ["#pragma unroll " +++ dec f]
  | _, _ => []
  end.
(* printed form of statements at an indentation level: lines *)
Fixpoint cprint (b : backend) (ind : nat) (c : code) : list string :=
  match c with
  | CNil => []
  | CDecl dt n e k => line ind (init b dt (pname n) (kprint b e)) :: cprint b ind k
  | CAssign n e k => line ind (assign b (pname n) (kprint b e)) :: cprint b ind k
  | CStore a i e k => line ind (assign b (index (pname a) (kprint b i)) (kprint b e)) :: cprint b ind k
  | CFor n ext x body k =>
      map (line ind) (pragma b x) ++ line ind (sequential_loop_start b (pname n) "0" (dec ext) "1") ::
      cprint b (S ind) body ++ line ind (loop_end b) :: cprint b ind k
  | CIf c t f k =>
      line ind (if_start b (kprint b c)) :: cprint b (S ind) t ++
      match f with CNil => [] | _ => line ind (else_ b) :: cprint b (S ind) f end ++
      line ind (if_end b) :: cprint b ind k
  | CRet => [line ind (return_function b)]
  | CGpu n bl ax k => line ind (init b Int64 (pname n) ((if bl then "blockIdx." else "threadIdx.") +++ axis_name ax)) :: cprint b ind k
  end.
Definition kernel_lines (b : backend) (kname : string) (kern : kernel) : list string :=
  map (import_lib b) (default_library b) ++
  kern_start b kname (map (fun p => pname (fst p)) (k_params kern)) (map snd (k_params kern)) ::
  cprint b 1 (k_body kern) ++ [kern_end b].
Definition nl : string := String (ascii_of_nat 10) "".
Definition kernel_text (b : backend) (kname : string) (kern : kernel) : string := join nl (kernel_lines b kname kern).

(* no return at the top level of the sequence *)
Fixpoint noret (c : code) : Prop :=
  match c with
  | CNil => True
  | CDecl _ _ _ k | CAssign _ _ k | CStore _ _ _ k | CFor _ _ _ _ k | CIf _ _ _ k | CGpu _ _ _ k => noret k
  | CRet => False
  end.
Lemma noret_capp a b : noret a -> noret b -> noret (capp a b).
Proof. induction a; cbn; auto. Qed.
Lemma cprint_capp b ind a c : noret a -> cprint b ind (capp a c) = cprint b ind a ++ cprint b ind c.
Proof.
  induction a; cbn; intros H; auto.
  - now rewrite IHa.
  - now rewrite IHa.
  - now rewrite IHa.
  - rewrite IHa2 by auto. now rewrite <- !app_assoc, <- !app_comm_cons, <- app_assoc.
  - rewrite IHa3 by auto. rewrite <- app_assoc. do 2 f_equal. rewrite <- app_assoc. reflexivity.
  - contradiction.
  - now rewrite IHa.
Qed.

Lemma write_lines lns s : write lns s = mkG (g_buf s ++ map (line (g_ind s)) lns) (g_ind s) (g_tmp s).
Proof.
  unfold write. revert s. induction lns as [|x r IH]; intros [bf i t]; cbn; [now rewrite app_nil_r|].
  rewrite IH. cbn. now rewrite <- app_assoc.
Qed.
Lemma kprint_sum b l : l <> [] -> kprint b (sum_kx l) = reduce_add b (map (kprint b) l).
Proof.
  destruct l as [|x r]; [congruence|]. intros _. cbn [sum_kx reduce_add map].
  revert x. induction r as [|y r IH]; intros x; cbn [fold_left map]; auto. rewrite IH. reflexivity.
Qed.
Lemma kprint_sum0 b l : kprint b (sum_kx l) = reduce_add b (map (kprint b) l).
Proof. destruct l as [|x r]; [reflexivity|]. now apply kprint_sum. Qed.
Lemma print_mul b vs sts : map (kprint b) (map (fun '(n, st) => KBin BMul n (KInt st)) (combine vs sts)) =
  map (fun '(n, st) => t_bin b BMul n (dec st)) (combine (map (kprint b) vs) sts).
Proof. revert sts. induction vs as [|v vs IH]; intros [|st sts]; cbn; auto. now rewrite <- IH. Qed.
Lemma print_arr b sh vs : kprint b (arr_idx_calc sh vs) = arr_idx_calc_expr b sh (map (kprint b) vs).
Proof. unfold arr_idx_calc, arr_idx_calc_expr. destruct sh; auto. now rewrite kprint_sum0, print_mul. Qed.
Lemma filter_combine (P : Z -> bool) {A B} (h : A -> B) vs sts :
  filter (fun '(_, st) => P st) (combine (map h vs) sts) = map (fun '(x, st) => (h x, st)) (filter (fun '(_, st) => P st) (combine vs sts)).
Proof. revert sts. induction vs as [|v vs IH]; intros [|st sts]; cbn; auto. destruct (P st); cbn; now rewrite IH. Qed.
Lemma print_buf b off sts vs : kprint b (buf_idx_calc off sts vs) =
  let terms := map (fun '(x, st) => t_bin b BMul x (dec st)) (filter (fun '(_, st) => negb (st =? 0)) (combine (map (kprint b) vs) sts)) in
  match terms with [] => dec off | _ => reduce_add b (dec off :: terms) end.
Proof.
  cbv zeta. unfold buf_idx_calc. rewrite kprint_sum by discriminate. cbn [map kprint].
  rewrite (filter_combine (fun st => negb (st =? 0)) (kprint b)). rewrite !map_map.
  replace (map (fun x => kprint b (let '(n, st) := x in KBin BMul n (KInt st))) (filter (fun '(_, st) => negb (st =? 0)) (combine vs sts)))
    with (map (fun x => let '(x0, st) := (let '(x1, st0) := x in (kprint b x1, st0)) in t_bin b BMul x0 (dec st)) (filter (fun '(_, st) => negb (st =? 0)) (combine vs sts))).
  2:{ apply map_ext. intros [n st]. reflexivity. }
  destruct (filter _ _); reflexivity.
Qed.
Lemma find_arg_pos a args : forall i, find_arg a (named_args args i) = option_map (fun j => pname (NArg (is_abuf a) (i + j))) (arg_pos a args).
Proof.
  induction args as [|x r IH]; intros i; cbn; auto. destruct (arg_eqb x a) eqn:E.
  - cbn. rewrite Nat.add_0_r. destruct x, a; cbn in *; try discriminate; reflexivity.
  - rewrite IH. destruct (arg_pos a r); cbn; auto. now rewrite Nat.add_succ_r.
Qed.

Section Print.
Context (b : backend) (g : graph) (E : fenv) (inputs : list arg).
Notation args := (named_args inputs 0).
Definition after (s : gst) (c : code) (k : nat) : gst := mkG (g_buf s ++ cprint b (g_ind s) c) (g_ind s) k.
Lemma render_noret e : forall dt k c v k1, render g E inputs e dt k = Done (c, v, k1) -> noret c.
Proof.
  induction e using expr_ind'; intros dt k c v k1; cbn [render].
  - intros H; injection H as <- _ _. exact I.
  - intros H; injection H as <- _ _. exact I.
  - destruct (render g E inputs e1 dt k) as [[[c1 v1] k']|] eqn:E1; [|discriminate]. cbn [obind].
    destruct (render g E inputs e2 dt k') as [[[c2 v2] k'']|] eqn:E2; [|discriminate]. cbn [obind].
    intros H; injection H as <- _ _. apply noret_capp; [eauto|]. apply noret_capp; [eauto|]. exact I.
  - destruct (render g E inputs e dt k) as [[[c1 v1] k']|] eqn:E1; [|discriminate]. cbn [obind].
    intros H; injection H as <- _ _. apply noret_capp; [eauto|]. exact I.
  - destruct (render g E inputs e1 Int64 (S k)) as [[[c1 v1] k']|] eqn:E1; [|discriminate]. cbn [obind].
    destruct (render g E inputs e2 dt k') as [[[c2 v2] k'']|] eqn:E2; [|discriminate]. cbn [obind].
    destruct (render g E inputs e3 dt k'') as [[[c3 v3] k3]|] eqn:E3; [|discriminate]. cbn [obind].
    intros H; injection H as <- _ _. cbn. apply noret_capp; [eauto|]. exact I.
  - destruct (render g E inputs e dt k) as [[[c1 v1] k']|] eqn:E1; [|discriminate]. cbn [obind].
    intros H; injection H as <- _ _. cbn. destruct red; cbn; auto. apply noret_capp; [eauto|]. exact I.
  - destruct (arg_name _ _); [|discriminate]. cbn [obind]. destruct (throw_none _ _); [|discriminate]. cbn [obind].
    match goal with |- context [?m idx k] => set (many := m) end.
    assert (HM : forall k c vs k1, many idx k = Done (c, vs, k1) -> noret c).
    { clear -H. induction H as [|x l Hx _ IH]; intros k c vs k1; cbn.
      - intros H; injection H as <- _ _. exact I.
      - destruct (render g E inputs x Int64 k) as [[[c1 v1] k']|] eqn:E1; [|discriminate]. cbn [obind].
        destruct (many l k') as [[[c2 v2] k'']|] eqn:E2; [|discriminate]. cbn [obind]. intros H; injection H as <- _ _. apply noret_capp; eauto. }
    destruct (many idx k) as [[[c2 v2] k'']|] eqn:E2; [|discriminate]. cbn [obind]. intros H1; injection H1 as <- _ _. eauto.
  - destruct (arg_name _ _); [|discriminate]. cbn [obind]. destruct (get g n); [|discriminate]. cbn [obind].
    match goal with |- context [?m idx k] => set (many := m) end.
    assert (HM : forall k c vs k1, many idx k = Done (c, vs, k1) -> noret c).
    { clear -H. induction H as [|x l Hx _ IH]; intros k c vs k1; cbn.
      - intros H; injection H as <- _ _. exact I.
      - destruct (render g E inputs x Int64 k) as [[[c1 v1] k']|] eqn:E1; [|discriminate]. cbn [obind].
        destruct (many l k') as [[[c2 v2] k'']|] eqn:E2; [|discriminate]. cbn [obind]. intros H; injection H as <- _ _. apply noret_capp; eauto. }
    destruct (many idx k) as [[[c2 v2] k'']|] eqn:E2; [|discriminate]. cbn [obind]. intros H1; injection H1 as <- _ _. eauto.
Qed.

Fixpoint opens (i : nat) (red : list lidx) : list string :=
  match red with [] => [] | l :: r => line i (sequential_loop_start b (pname (lname l)) "0" (dec (l_ext l)) "1") :: opens (S i) r end.
Fixpoint closes (i : nat) (n : nat) : list string :=
  match n with O => [] | S n => closes (S i) n ++ [line i (loop_end b)] end.
Lemma cprint_nest inner red : forall i, cprint b i (fold_right (fun l body => CFor (lname l) (l_ext l) XSeq body CNil) inner red) =
  opens i red ++ cprint b (i + length red) inner ++ closes i (length red).
Proof.
  induction red as [|l r IH]; intros i; cbn [fold_right opens closes List.length cprint].
  - now rewrite Nat.add_0_r, app_nil_r.
  - replace (map (line i) (pragma b XSeq)) with (@nil string) by (destruct b; reflexivity). cbn [app]. f_equal. rewrite IH.
    replace (i + S (length r))%nat with (S i + length r)%nat by lia. now rewrite <- !app_assoc.
Qed.
Lemma open_eq red : forall s, fold_left (fun s l => nest (write [sequential_loop_start b (pname (lname l)) "0" (dec (l_ext l)) "1"] s)) red s =
  mkG (g_buf s ++ opens (g_ind s) red) (g_ind s + length red) (g_tmp s).
Proof.
  induction red as [|l r IH]; intros [bf i t]; cbn [fold_left opens List.length g_buf g_ind g_tmp].
  - now rewrite app_nil_r, Nat.add_0_r.
  - rewrite IH, write_lines. cbn [nest g_buf g_ind g_tmp map]. rewrite <- app_assoc. f_equal. lia.
Qed.
Lemma closes_comm i n : closes (S i) n ++ [line i (loop_end b)] = line (i + n)%nat (loop_end b) :: closes i n.
Proof.
  revert i. induction n as [|n IH]; intros i; cbn [closes app]; [now rewrite Nat.add_0_r|].
  rewrite IH. replace (i + S n)%nat with (S i + n)%nat by lia. reflexivity.
Qed.
Lemma close_eq {A} (red : list A) : forall s i, g_ind s = (i + length red)%nat -> fold_left (fun s _ => write [loop_end b] (unnest s)) red s =
  mkG (g_buf s ++ closes i (length red)) i (g_tmp s).
Proof.
  induction red as [|l r IH]; intros [bf j t] i; cbn [fold_left List.length g_buf g_ind g_tmp]; intros Hi.
  - cbn [closes]. rewrite app_nil_r. f_equal. lia.
  - rewrite (IH _ i) by (rewrite write_lines; cbn; lia). rewrite write_lines. cbn [unnest g_buf g_ind g_tmp map closes].
    rewrite closes_comm. rewrite <- app_assoc. cbn [app]. do 3 f_equal. f_equal. lia.
Qed.
Definition many_r := fix many (l : list expr) (k : nat) : outcome (code * list kx * nat) :=
    match l with
    | [] => Done (CNil, [], k)
    | x :: l' => '(c, v, k1) <~ render g E inputs x Int64 k ;; '(c', vs, k2) <~ many l' k1 ;; Done (capp c c', v :: vs, k2)
    end.
Definition many_t := fix many (l : list expr) (s : gst) : outcome (list string * gst) :=
    match l with
    | [] => Done ([], s)
    | x :: l' => '(v, s1) <~ t_render b g E args x Int64 s ;; '(vs, s2) <~ many l' s1 ;; Done (v :: vs, s2)
    end.
Lemma after_capp s c c' k : noret c -> after s (capp c c') k = mkG (g_buf (after s c k) ++ cprint b (g_ind s) c') (g_ind s) k.
Proof. intros H. unfold after. cbn. rewrite cprint_capp by auto. now rewrite app_assoc. Qed.
Theorem t_render_eq e : forall dt s, t_render b g E args e dt s =
  ('(c, v, k) <~ render g E inputs e dt (g_tmp s) ;; Done (kprint b v, after s c k)).
Proof.
  induction e using expr_ind'; intros dt s; cbn [render t_render].
  - cbn. unfold after. cbn. rewrite app_nil_r. destruct s; reflexivity.
  - cbn. unfold after. cbn. rewrite app_nil_r. destruct s; reflexivity.
  - rewrite IHe1. destruct (render g E inputs e1 dt (g_tmp s)) as [[[c1 v1] k1]|] eqn:E1; [|reflexivity]. cbn [obind]. rewrite IHe2. cbn [g_tmp after].
    destruct (render g E inputs e2 dt k1) as [[[c2 v2] k2]|] eqn:E2; [|reflexivity]. cbn [obind tmpvar]. rewrite write_lines. cbn [after g_buf g_ind g_tmp map kprint].
    do 2 f_equal. unfold after. f_equal. rewrite !cprint_capp by eauto using render_noret. cbn [cprint kprint]. now rewrite !app_assoc.
  - rewrite IHe. destruct (render g E inputs e dt (g_tmp s)) as [[[c1 v1] k1]|] eqn:E1; [|reflexivity]. cbn [obind tmpvar]. rewrite write_lines. cbn [after g_buf g_ind g_tmp map kprint].
    do 2 f_equal. unfold after. f_equal. rewrite !cprint_capp by eauto using render_noret. cbn [cprint kprint]. now rewrite !app_assoc.
  - cbn [tmpvar]. rewrite write_lines, IHe1. cbn [g_tmp g_buf g_ind map].
    destruct (render g E inputs e1 Int64 (S (g_tmp s))) as [[[c1 v1] k1]|] eqn:E1; [|reflexivity]. cbn [obind]. rewrite write_lines, IHe2. cbn [nest after g_tmp g_buf g_ind map].
    destruct (render g E inputs e2 dt k1) as [[[c2 v2] k2]|] eqn:E2; [|reflexivity]. cbn [obind]. rewrite !write_lines, IHe3. cbn [nest unnest after g_tmp g_buf g_ind map pred].
    destruct (render g E inputs e3 dt k2) as [[[c3 v3] k3]|] eqn:E3; [|reflexivity]. cbn [obind]. rewrite !write_lines. cbn [nest unnest after g_tmp g_buf g_ind map pred kprint].
    do 2 f_equal. unfold after. f_equal. cbn [cprint]. rewrite !cprint_capp by eauto using render_noret. cbn [cprint]. rewrite !cprint_capp by eauto using render_noret. cbn [cprint].
    assert (HX : forall A B : list string, match capp c3 (CAssign (NTmp (g_tmp s)) v3 CNil) with CNil => A | _ => B end = B) by (destruct c3; reflexivity).
    rewrite HX. rewrite ?cprint_capp by eauto using render_noret. cbn [cprint kprint]. rewrite <- ?app_assoc. cbn [app]. rewrite <- ?app_assoc. cbn [app].
    replace (kprint b (if is_int dt then KInt 0 else KFlt0)) with (if is_int dt then "0" else "0.0") by (destruct (is_int dt); reflexivity).
    reflexivity.
  - rewrite write_lines, open_eq. cbn [g_tmp g_buf g_ind map]. rewrite IHe. cbn [g_tmp g_buf g_ind].
    destruct (render g E inputs e dt (g_tmp s)) as [[[c1 v1] k1]|] eqn:E1; [|reflexivity]. cbn [obind]. rewrite write_lines. cbn [after g_tmp g_buf g_ind map].
    rewrite (close_eq red _ (g_ind s)) by reflexivity. cbn [g_tmp g_buf g_ind kprint]. do 2 f_equal. unfold after. f_equal. cbn [cprint kprint].
    rewrite cprint_nest, cprint_capp by eauto using render_noret. cbn [cprint kprint]. rewrite <- !app_assoc. cbn [app]. reflexivity.
  - unfold arg_name. rewrite find_arg_pos. destruct (arg_pos (AFnc f) inputs) as [j|]; [|reflexivity]. cbn [option_map throw_none obind].
    destruct (throw_none InternalErr (E f)) as [fd|]; [|reflexivity]. cbn [obind]. fold many_r many_t.
    assert (HM : forall s, many_t idx s = ('(c, vs, k) <~ many_r idx (g_tmp s) ;; Done (map (kprint b) vs, after s c k)) /\
                 forall c vs k, many_r idx (g_tmp s) = Done (c, vs, k) -> noret c).
    { clear s. induction H as [|x l Hx _ IH]; intros s; cbn [many_t many_r].
      - split; [cbn; unfold after; cbn; rewrite app_nil_r; destruct s; reflexivity|]. intros c vs k H; injection H as <- _ _; exact I.
      - rewrite Hx. destruct (render g E inputs x Int64 (g_tmp s)) as [[[c1 v1] k1]|] eqn:E1; [|split; [reflexivity|discriminate]]. cbn [obind].
        destruct (IH (after s c1 k1)) as [-> IH2]. cbn [after g_tmp] in *. destruct (many_r l k1) as [[[c2 v2] k2]|] eqn:E2; [|split; [reflexivity|discriminate]].
        cbn [obind]. split.
        + cbn [map]. do 2 f_equal. unfold after. cbn. rewrite cprint_capp by eauto using render_noret. now rewrite app_assoc.
        + intros c vs k H0. injection H0 as <- _ _. apply noret_capp; eauto using render_noret. }
    destruct (HM s) as [-> HN]. destruct (many_r idx (g_tmp s)) as [[[c vs] k]|] eqn:Em; [|reflexivity]. cbn [obind kprint]. now rewrite print_arr.
  - unfold arg_name. rewrite find_arg_pos. destruct (arg_pos (ABuf n) inputs) as [j|]; [|reflexivity]. cbn [option_map throw_none obind].
    destruct (get g n) as [nd|]; [|reflexivity]. cbn [obind]. fold many_r many_t.
    assert (HM : forall s, many_t idx s = ('(c, vs, k) <~ many_r idx (g_tmp s) ;; Done (map (kprint b) vs, after s c k)) /\
                 forall c vs k, many_r idx (g_tmp s) = Done (c, vs, k) -> noret c).
    { clear s. induction H as [|x l Hx _ IH]; intros s; cbn [many_t many_r].
      - split; [cbn; unfold after; cbn; rewrite app_nil_r; destruct s; reflexivity|]. intros c vs k H; injection H as <- _ _; exact I.
      - rewrite Hx. destruct (render g E inputs x Int64 (g_tmp s)) as [[[c1 v1] k1]|] eqn:E1; [|split; [reflexivity|discriminate]]. cbn [obind].
        destruct (IH (after s c1 k1)) as [-> IH2]. cbn [after g_tmp] in *. destruct (many_r l k1) as [[[c2 v2] k2]|] eqn:E2; [|split; [reflexivity|discriminate]].
        cbn [obind]. split.
        + cbn [map]. do 2 f_equal. unfold after. cbn. rewrite cprint_capp by eauto using render_noret. now rewrite app_assoc.
        + intros c vs k H0. injection H0 as <- _ _. apply noret_capp; eauto using render_noret. }
    destruct (HM s) as [-> HN]. destruct (many_r idx (g_tmp s)) as [[[c vs] k]|] eqn:Em; [|reflexivity]. cbn [obind kprint]. now rewrite print_buf.
Qed.

(* ------------------------------------------------------------------ loops, splits, guards *)
Definition nests (x : lexec) : bool := match x with XBlock _ | XThread _ => false | _ => true end.
Fixpoint loop_count (loops : list loopsched) : nat :=
  match loops with [] => 0%nat | l :: r => ((if is_spatial l && nests (ls_exec l) then 1 else 0) + loop_count r)%nat end.
Fixpoint lopens (i : nat) (loops : list loopsched) : list string :=
  match loops with
  | [] => []
  | l :: r => if is_spatial l then
      match loop_start b (ls_exec l) (pname (lv_name (ls_lv l))) (dec (lv_ext (ls_lv l))) with
      | Done (lns, nst) => map (line i) lns ++ lopens (if nst : bool then S i else i) r
      | Throw _ => []
      end else lopens i r
  end.
Definition handled (loops : list loopsched) : bool := forallb (fun l => handles b (ls_exec l)) (filter is_spatial loops).
Lemma handled_cons l r : handled (l :: r) = (if is_spatial l then handles b (ls_exec l) && handled r else handled r).
Proof. unfold handled. cbn. destruct (is_spatial l); reflexivity. Qed.
Lemma loop_start_ok x n e : handles b x = true -> exists lns, loop_start b x n e = Done (lns, nests x).
Proof. destruct b, x; cbn; intros H; try discriminate; eexists; reflexivity. Qed.
Lemma loop_start_no x n e : handles b x = false -> loop_start b x n e = Throw RuntimeErr.
Proof. destruct b, x; cbn; intros H; try discriminate; reflexivity. Qed.
Lemma loop_start_nest x n e : handles b x = true -> nests x = true -> loop_start b x n e = Done (pragma b x ++ [sequential_loop_start b n "0" e "1"], true).
Proof. destruct b, x; cbn; intros H H'; try discriminate; reflexivity. Qed.
Lemma loop_start_gpu a n e : (handles b (XBlock a) = true -> loop_start b (XBlock a) n e = Done ([init b Int64 n ("blockIdx." +++ axis_name a)], false)) /\
  (handles b (XThread a) = true -> loop_start b (XThread a) n e = Done ([init b Int64 n ("threadIdx." +++ axis_name a)], false)).
Proof. destruct b; cbn; split; intros H; try discriminate; reflexivity. Qed.
Lemma t_loops_ok loops : handled loops = true -> forall s, t_loops b loops s =
  Done (loop_count loops, mkG (g_buf s ++ lopens (g_ind s) loops) (g_ind s + loop_count loops) (g_tmp s)).
Proof.
  induction loops as [|l r IH]; intros HH s; cbn [t_loops loop_count lopens].
  - rewrite app_nil_r, Nat.add_0_r. now destruct s.
  - rewrite handled_cons in HH. destruct (is_spatial l) eqn:Es; cbn [andb]; [|now rewrite IH].
    apply andb_true_iff in HH as [H1 H2]. destruct (loop_start_ok _ (pname (lv_name (ls_lv l))) (dec (lv_ext (ls_lv l))) H1) as [lns ->]. cbn [obind].
    rewrite write_lines. destruct (nests (ls_exec l)); unfold nest; rewrite (IH H2); cbn [obind g_buf g_ind g_tmp]; rewrite <- app_assoc; [|reflexivity]. do 3 f_equal. lia.
Qed.
Lemma t_loops_no loops : handled loops = false -> forall s, t_loops b loops s = Throw RuntimeErr.
Proof.
  induction loops as [|l r IH]; intros HH s; cbn [t_loops]; [discriminate|].
  rewrite handled_cons in HH. destruct (is_spatial l) eqn:Es; [|now rewrite IH].
  destruct (handles b (ls_exec l)) eqn:H1; [|now rewrite loop_start_no].
  destruct (loop_start_ok _ (pname (lv_name (ls_lv l))) (dec (lv_ext (ls_lv l))) H1) as [lns ->]. cbn [obind]. now rewrite IH.
Qed.
Lemma cprint_loops loops inner : handled loops = true -> forall i, cprint b i (render_loops loops inner) =
  lopens i loops ++ cprint b (i + loop_count loops) inner ++ closes i (loop_count loops).
Proof.
  induction loops as [|l r IH]; intros HH i; cbn [render_loops lopens loop_count].
  - cbn [closes app]. now rewrite Nat.add_0_r, app_nil_r.
  - rewrite handled_cons in HH. destruct (is_spatial l) eqn:Es; cbn [andb]; [|now rewrite IH].
    apply andb_true_iff in HH as [H1 H2]. specialize (IH H2).
    destruct (nests (ls_exec l)) eqn:En.
    + rewrite (loop_start_nest _ _ _ H1 En). replace (i + (1 + loop_count r))%nat with (S i + loop_count r)%nat by lia. cbn [Nat.add closes].
      destruct (ls_exec l) eqn:Ex; try discriminate; cbn [cprint]; rewrite IH, map_app, <- !app_assoc; reflexivity.
    + cbn [Nat.add]. destruct (ls_exec l) as [| | | |ax|ax] eqn:Ex; try discriminate.
      * rewrite (proj1 (loop_start_gpu ax _ _) H1). cbn [cprint map app]. now rewrite IH.
      * rewrite (proj2 (loop_start_gpu ax _ _) H1). cbn [cprint map app]. now rewrite IH.
Qed.
Lemma finish_eq k : forall s i, g_ind s = (i + k)%nat -> loop_finish b k s = mkG (g_buf s ++ closes i k) i (g_tmp s).
Proof.
  induction k as [|k IH]; intros [bf j t] i; cbn [loop_finish g_buf g_ind g_tmp]; intros Hi.
  - cbn [closes]. rewrite app_nil_r. f_equal. lia.
  - rewrite (IH _ i) by (rewrite write_lines; cbn; lia). rewrite write_lines. cbn [unnest g_buf g_ind g_tmp map closes].
    rewrite closes_comm. rewrite <- app_assoc. cbn [app]. do 3 f_equal. f_equal. lia.
Qed.
Lemma splits_eq sps : forall s, t_splits b sps s = after s (render_splits sps) (g_tmp s).
Proof.
  unfold t_splits. induction sps as [|sp r IH]; intros s; cbn [fold_left render_splits].
  - unfold after. cbn. rewrite app_nil_r. now destruct s.
  - rewrite IH, write_lines. unfold after. cbn. f_equal. rewrite <- app_assoc. cbn [app]. reflexivity.
Qed.
Lemma guards_eq sps : forall s, t_guards b sps s = after s (render_guards sps) (g_tmp s).
Proof.
  unfold t_guards. induction sps as [|sp r IH]; intros s; cbn [fold_left render_guards].
  - unfold after. cbn. rewrite app_nil_r. now destruct s.
  - rewrite IH. destruct (sp_guard sp); [|reflexivity]. rewrite !write_lines. unfold after. cbn [nest unnest g_buf g_ind g_tmp map pred cprint kprint].
    f_equal. rewrite <- !app_assoc. cbn [app]. reflexivity.
Qed.
Lemma splits_noret sps : noret (render_splits sps).
Proof. induction sps; cbn; auto. Qed.
Lemma guards_noret sps : noret (render_guards sps).
Proof. induction sps; cbn; auto. destruct (sp_guard a); cbn; auto. Qed.
Lemma params_types l : forall i, arg_types g E l = (ps <~ arg_params g E l i ;; Done (map snd ps)).
Proof.
  induction l as [|a r IH]; intros i; cbn; auto. destruct (arg_dtype g E a); [|reflexivity]. cbn. rewrite (IH (S i)).
  destruct (arg_params g E r (S i)); reflexivity.
Qed.
Lemma params_names l : forall i ps, arg_params g E l i = Done ps -> map (fun p => pname (fst p)) ps = map fst (named_args l i).
Proof.
  induction l as [|a r IH]; intros i ps; cbn; [intros H; injection H as <-; reflexivity|].
  destruct (arg_dtype g E a); [|discriminate]. cbn. destruct (arg_params g E r (S i)) as [ps'|] eqn:Ep; [|discriminate]. cbn.
  intros H; injection H as <-. cbn. rewrite (IH _ _ Ep). f_equal. destruct a; reflexivity.
Qed.
Theorem t_codegen_eq kname f sc k : handled (s_loops sc) = true ->
  t_codegen b g E kname inputs f sc k = ('(kern, k1) <~ codegen g E inputs f sc k ;; Done (kernel_text b kname kern, k1)).
Proof.
  intros HH. unfold t_codegen, codegen. rewrite (params_types inputs 0). destruct (arg_params g E inputs 0) as [ps|] eqn:Ep; [|reflexivity]. cbn [obind].
  rewrite (t_loops_ok _ HH). cbn [obind]. rewrite splits_eq, guards_eq, t_render_eq. cbn [after g_tmp nest]. rewrite !write_lines. cbn [g_tmp g_buf g_ind nest].
  destruct (render g E inputs (f_expr f) (f_dtype f) k) as [[[c v] k1]|] eqn:Er; [|reflexivity]. cbn [obind].
  rewrite (finish_eq _ _ 1%nat) by (rewrite write_lines; reflexivity). rewrite !write_lines. cbn [after unnest nest g_buf g_ind g_tmp map pred].
  do 2 f_equal. unfold kernel_text, kernel_lines. cbn [k_params k_body map fst snd pname]. rewrite (params_names _ _ _ Ep).
  rewrite cprint_loops by auto. rewrite !cprint_capp by eauto using splits_noret, guards_noret, render_noret. cbn [cprint kprint]. rewrite print_arr, !map_map. cbn [kprint].
  fold nl. f_equal. rewrite <- !app_assoc. cbn [app]. reflexivity.
Qed.
Theorem t_codegen_no kname f sc k : handled (s_loops sc) = false ->
  t_codegen b g E kname inputs f sc k = (_ <~ arg_params g E inputs 0 ;; Throw RuntimeErr).
Proof.
  intros HH. unfold t_codegen. rewrite (params_types inputs 0). destruct (arg_params g E inputs 0) as [ps|] eqn:Ep; [|reflexivity]. cbn [obind].
  now rewrite (t_loops_no _ HH).
Qed.
End Print.

(* The loops of the GPU schedule. *)
From Verif Require Import Base BaseFacts Util UtilFacts Lang Spec Graph Algo AlgoSem AlgoConv Kernel Sched Codegen KernFacts RenderFacts KernelOk SchedFacts.

Definition lvar (i : nat) (d : Z) : loopvar := mkLV (NLoop false i []) d.
Definition lvar_o (i : nat) (d : Z) : loopvar := mkLV (NLoop false i [true]) (ceildiv d block_size).
Definition lvar_i (i : nat) : loopvar := mkLV (NLoop false i [false]) block_size.
Definition sp (lv : loopvar) (x : lexec) : loopsched := mkLS lv Spatial x.
(* loops over the output, by rank *)
Definition gpu_spatial (shape : list Z) : list loopsched :=
  match shape with
  | [] => []
  | [d] => [sp (lvar_o 0 d) (XBlock AX); sp (lvar_i 0) (XThread AX)]
  | [d; e] => [sp (lvar 0 d) (XBlock AX); sp (lvar_o 1 e) (XBlock AY); sp (lvar_i 1) (XThread AX)]
  | [d; e; f] => [sp (lvar 0 d) (XBlock AX); sp (lvar 1 e) (XBlock AY); sp (lvar_o 2 f) (XBlock AZ); sp (lvar_i 2) (XThread AX)]
  | _ => mapi_from 0 (fun i d => sp (lvar i d) XSeq) (removelast shape) ++
         [sp (lvar_o (length shape - 1) (last shape 0)) (XBlock AX); sp (lvar_i (length shape - 1)) (XThread AX)]
  end.
Definition gpu_splits (shape : list Z) : list splitloop :=
  match shape with
  | [] => []
  | _ => let n := (length shape - 1)%nat in let d := last shape 0 in
         [mkSp (lvar n d) (lvar_o n d) (lvar_i n) block_size (negb (d mod block_size =? 0))]
  end.
Definition red_loops (red : list lidx) : list loopsched := map (fun l => mkLS (mkLV (lname l) (l_ext l)) Reduce XSeq) red.

Lemma sched_init_out a shape dt e o : s_loops (sched_init (mkF (out_loops a shape) shape dt e o)) =
  mapi_from 0 (fun i d => sp (lvar i d) XSeq) shape ++ red_loops (reduced_vars e).
Proof.
  unfold sched_init, out_loops. cbn [s_loops f_loops f_expr]. f_equal. generalize 0%nat as k. induction shape as [|d s IH]; intros k; cbn; auto. f_equal; auto.
Qed.
Lemma mapi_snoc {A B} (f : nat -> A -> B) l x k : mapi_from k f (l ++ [x]) = mapi_from k f l ++ [f (k + length l)%nat x].
Proof.
  revert k; induction l as [|y l IH]; intros k; cbn; [now rewrite Nat.add_0_r|]. rewrite IH. cbn [app length]. now replace (S k + length l)%nat with (k + S (length l))%nat by lia.
Qed.
Lemma mapi_length {A B} (f : nat -> A -> B) l k : length (mapi_from k f l) = length l.
Proof. revert k; induction l; cbn; auto. Qed.
Lemma index_of_app_r n l1 l2 : (forall x, In x l1 -> lv_name (ls_lv x) <> n) ->
  index_of n (l1 ++ l2) = option_map (Nat.add (length l1)) (index_of n l2).
Proof.
  induction l1 as [|x l1 IH]; intros H; cbn.
  - now destruct (index_of n l2).
  - destruct (name_eqb (lv_name (ls_lv x)) n) eqn:E; [exfalso; apply (H x); [now left|now apply name_eqb_eq]|].
    rewrite IH by (intros; apply H; now right). now destruct (index_of n l2).
Qed.
Lemma nth_error_mid {A} (l1 l2 : list A) x : nth_error (l1 ++ x :: l2) (length l1) = Some x.
Proof. rewrite nth_error_app2, Nat.sub_diag by lia. reflexivity. Qed.
Lemma upd_mid {A} (l1 l2 : list A) x y : upd (l1 ++ x :: l2) (length l1) y = l1 ++ y :: l2.
Proof. induction l1; cbn; auto. now f_equal. Qed.
Lemma firstn_mid {A} (l1 l2 : list A) : firstn (length l1) (l1 ++ l2) = l1.
Proof. now rewrite firstn_app, Nat.sub_diag, firstn_O, app_nil_r, firstn_all. Qed.
Lemma skipn_mid {A} (l1 l2 : list A) x : skipn (S (length l1)) (l1 ++ x :: l2) = l2.
Proof. rewrite skipn_app, skipn_all2 by lia. replace (S (length l1) - length l1)%nat with 1%nat by lia. reflexivity. Qed.
Lemma in_mapi_names s k x : In x (mapi_from k (fun i d => sp (lvar i d) XSeq) s) ->
  exists i, (k <= i < k + length s)%nat /\ lv_name (ls_lv x) = NLoop false i [].
Proof.
  revert k; induction s as [|d s IH]; intros k H; cbn in H; [tauto|]. destruct H as [<-|H].
  - exists k. cbn. split; [lia|reflexivity].
  - destruct (IH _ H) as (i & Hi & E). exists i. cbn. split; [lia|assumption].
Qed.

Theorem schedule_gpu_ok a shape dt e o : exists s, schedule_gpu (sched_init (mkF (out_loops a shape) shape dt e o)) = Done s /\
  s_loops s = gpu_spatial shape ++ red_loops (reduced_vars e) /\ s_splits s = gpu_splits shape.
Proof.
  set (f := mkF (out_loops a shape) shape dt e o).
  assert (HS : spatial_loops (sched_init f) = mapi_from 0 (fun i d => lvar i d) shape).
  { rewrite spatial_init. unfold f, out_loops. cbn. generalize 0%nat as k. induction shape as [|d s IH]; intros k; cbn; auto. f_equal; auto. }
  pose proof (sched_init_out a shape dt e o) as HL. fold f in HL.
  assert (HP : s_splits (sched_init f) = []) by reflexivity.
  destruct (sched_init f) as [loops spl]. cbn in HS, HL, HP. subst loops spl.
  unfold schedule_gpu. unfold spatial_loops in *. cbn [s_loops] in HS. cbn [s_loops]. rewrite HS.
  destruct shape as [|d0 [|d1 [|d2 [|d3 s]]]].
  - cbn. eexists. split; [reflexivity|]. cbn. auto.
  - cbn. eexists. split; [reflexivity|]. cbn. auto.
  - cbn. eexists. split; [reflexivity|]. cbn. auto.
  - cbn. eexists. split; [reflexivity|]. cbn. auto.
  - clear HS. cbn [mapi_from]. set (sh := d0 :: d1 :: d2 :: d3 :: s).
    change (lvar 0 d0 :: lvar 1 d1 :: lvar 2 d2 :: lvar 3 d3 :: mapi_from 4 (fun i d => lvar i d) s) with (mapi_from 0 (fun i d => lvar i d) sh).
    change (sp (lvar 0 d0) XSeq :: sp (lvar 1 d1) XSeq :: sp (lvar 2 d2) XSeq :: sp (lvar 3 d3) XSeq :: mapi_from 4 (fun i d => sp (lvar i d) XSeq) s) with (mapi_from 0 (fun i d => sp (lvar i d) XSeq) sh).
    change (gpu_spatial sh) with (mapi_from 0 (fun i d => sp (lvar i d) XSeq) (removelast sh) ++
         [sp (lvar_o (length sh - 1) (last sh 0)) (XBlock AX); sp (lvar_i (length sh - 1)) (XThread AX)]).
    change (gpu_splits sh) with [mkSp (lvar (length sh - 1) (last sh 0)) (lvar_o (length sh - 1) (last sh 0)) (lvar_i (length sh - 1)) block_size (negb (last sh 0 mod block_size =? 0))].
    assert (Hsh : sh <> []) by discriminate. clearbody sh. clear - Hsh.
    destruct (exists_last Hsh) as (s0 & d & ->). rewrite removelast_last, last_last, !mapi_snoc, last_last, app_length. cbn [Nat.add length].
    replace (length s0 + 1 - 1)%nat with (length s0) by lia.
    set (l1 := mapi_from 0 (fun i d1 => sp (lvar i d1) XSeq) s0). set (rs := red_loops (reduced_vars e)).
    assert (HL1 : length l1 = length s0) by apply mapi_length.
    assert (HN : forall p x, In x l1 -> lv_name (ls_lv x) <> NLoop false (length s0) p).
    { intros p x Hx Heq. destruct (in_mapi_names _ _ _ Hx) as (i & Hi & E). rewrite E in Heq. injection Heq. lia. }
    rewrite <- app_assoc. cbn [app]. unfold split. cbn [block_size Z.eqb lv_name lvar].
    replace (block_size =? 0) with false by reflexivity. cbn [s_loops s_splits].
    rewrite index_of_app_r by apply HN. cbn [index_of ls_lv sp lvar lv_name]. rewrite name_eqb_refl. cbn [option_map].
    rewrite Nat.add_0_r, nth_error_mid, firstn_mid, skipn_mid. cbn [obind app ls_kind].
    unfold set_exec. cbn [s_loops s_splits lv_name suffix app].
    rewrite index_of_app_r by apply HN. cbn [index_of ls_lv lv_name]. rewrite name_eqb_refl. cbn [option_map throw_none obind].
    rewrite Nat.add_0_r, nth_error_mid, upd_mid. cbn [obind s_loops s_splits].
    rewrite index_of_app_r by apply HN. cbn [index_of ls_lv lv_name].
    replace (name_eqb (NLoop false (length s0) [true]) (NLoop false (length s0) [false])) with false by (cbn; rewrite Nat.eqb_refl; reflexivity).
    rewrite name_eqb_refl. cbn [option_map throw_none obind ls_lv ls_kind].
    match goal with |- context [l1 ++ ?x :: ?y :: rs] => replace (l1 ++ x :: y :: rs) with ((l1 ++ [x]) ++ y :: rs) by (rewrite <- app_assoc; reflexivity);
      replace (length l1 + 1)%nat with (length (l1 ++ [x])) by (rewrite app_length; reflexivity) end.
    rewrite nth_error_mid, upd_mid. eexists. split; [reflexivity|]. cbn [s_loops s_splits ls_lv ls_kind].
    split; [|reflexivity]. rewrite <- !app_assoc. reflexivity.
Qed.

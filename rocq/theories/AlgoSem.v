(* What a Func expression denotes: indices and conditions are integers (checked against the
   exactness bound of the language at every intermediate step), values are computed from the
   elements of producers [F f idx]. *)
From Verif Require Import Base BaseFacts Util Lang Spec Graph Denote Algo.

Definition ltB (L : lang) (z : Z) : Prop := match ibound L with None => True | Some b => z < b end.
Definition inBb (L : lang) (z : Z) : bool := (0 <=? z) && match ibound L with None => true | Some b => z <? b end.
Lemma inBb_spec L z : inBb L z = true <-> inB L z.
Proof. unfold inBb, inB. destruct (ibound L); rewrite andb_true_iff; [|intuition lia]. split; intros [? ?]; split; lia. Qed.
Lemma inB_intro L z : 0 <= z -> ltB L z -> inB L z.
Proof. unfold inB, ltB. auto. Qed.
Lemma inB_le L z y : inB L y -> 0 <= z <= y -> inB L z.
Proof. unfold inB. destruct (ibound L); intros [? ?] ?; split; auto; lia. Qed.
Lemma ltB_le L z y : ltB L y -> z <= y -> ltB L z.
Proof. unfold ltB. destruct (ibound L); auto. lia. Qed.

Section expr_ind.
  Variable P : expr -> Prop.
  Hypothesis HIdx : forall l, P (EIdx l).
  Hypothesis HConst : forall z, P (EConst z).
  Hypothesis HBin : forall b l r, P l -> P r -> P (EBin b l r).
  Hypothesis HUn : forall u e, P e -> P (EUn u e).
  Hypothesis HWhere : forall c t f, P c -> P t -> P f -> P (EWhere c t f).
  Hypothesis HSum : forall e red, P e -> P (ESum e red).
  Hypothesis HFunc : forall f idx, Forall P idx -> P (EFunc f idx).
  Hypothesis HBuf : forall n idx, Forall P idx -> P (EBuf n idx).
  Fixpoint expr_ind' (e : expr) : P e :=
    let go := fix go (l : list expr) : Forall P l :=
      match l with [] => Forall_nil _ | x :: r => Forall_cons _ (expr_ind' x) (go r) end in
    match e with
    | EIdx l => HIdx l
    | EConst z => HConst z
    | EBin b l r => HBin b l r (expr_ind' l) (expr_ind' r)
    | EUn u e => HUn u e (expr_ind' e)
    | EWhere c t f => HWhere c t f (expr_ind' c) (expr_ind' t) (expr_ind' f)
    | ESum e red => HSum e red (expr_ind' e)
    | EFunc f idx => HFunc f idx (go idx)
    | EBuf n idx => HBuf n idx (go idx)
    end.
End expr_ind.

Lemma lidx_eqb_eq a b : lidx_eqb a b = true <-> a = b.
Proof.
  unfold lidx_eqb. rewrite !andb_true_iff, !Nat.eqb_eq, Z.eqb_eq, Bool.eqb_true_iff.
  destruct a, b; cbn. split; [intros (((-> & ->) & ->) & ->); reflexivity|intros H; injection H; intuition].
Qed.
Lemma lidx_eqb_refl a : lidx_eqb a a = true.
Proof. now apply lidx_eqb_eq. Qed.

Definition ienv := lidx -> option Z.
Definition ibind (l : lidx) (z : Z) (r : ienv) : ienv := fun k => if lidx_eqb l k then Some z else r k.
Fixpoint ibinds (ls : list lidx) (zs : list Z) (r : ienv) : ienv :=
  match ls, zs with l :: ls', z :: zs' => ibinds ls' zs' (ibind l z r) | _, _ => r end.
Definition ienv0 : ienv := fun _ => None.

Section Sem.
Context (L : lang).
Notation V := (val L).
Context (shp : nat -> list Z) (F : nat -> list Z -> res V).

Definition chk (z : Z) : res Z := if inBb L z then Ok z else Fault.
Definition ibin (b : bop) (u w : Z) : res Z :=
  match b with
  | BAdd => chk (u + w)
  | BSub => chk (u - w)
  | BMul => chk (u * w)
  | BFloordiv => if 0 <? w then chk (u / w) else Fault
  | BMod => if 0 <? w then chk (u mod w) else Fault
  | BEq => Ok (b2z (u =? w))
  | BGe => Ok (b2z (u >=? w))
  | BLt => Ok (b2z (u <? w))
  | BAnd => if (u <=? 1) && (w <=? 1) then Ok (b2z ((u =? 1) && (w =? 1))) else Fault
  | _ => Fault
  end.
Fixpoint evalI (r : ienv) (e : expr) : res Z :=
  match e with
  | EIdx l => z <- or_fault (r l) ;; chk z
  | EConst z => chk z
  | EBin b x y => u <- evalI r x ;; w <- evalI r y ;; ibin b u w
  | _ => Fault
  end.

Fixpoint sum_loops (dt : dtype) (red : list lidx) (body : ienv -> res V) (r : ienv) (acc : V) : res V :=
  match red with
  | [] => v <- body r ;; op2 L dt BAdd acc v
  | l :: red' =>
      (fix it (zs : list Z) (acc : V) : res V :=
         match zs with
         | [] => Ok acc
         | z :: zs' => acc' <- sum_loops dt red' body (ibind l z r) acc ;; it zs' acc'
         end) (zrange (l_ext l)) acc
  end.

Definition readF (f : nat) (zs : list Z) : res V := if in_rangeb (shp f) zs then F f zs else Fault.

Fixpoint evalV (dt : dtype) (e : expr) (r : ienv) : res V :=
  match e with
  | EIdx _ => Fault
  | EConst z => Ok (lit L z)
  | EBin b x y => u <- evalV dt x r ;; w <- evalV dt y r ;; op2 L dt b u w
  | EUn u x => v <- evalV dt x r ;; op1 L dt u v
  | EWhere c t f => z <- evalI r c ;;
                    v <- (if z =? 0 then evalV dt f r else evalV dt t r) ;; Ok (coerce L dt v)
  | ESum x red => sum_loops dt red (evalV dt x) r (coerce L dt (lit L 0))
  | EFunc f idx => zs <- mapM (evalI r) idx ;; readF f zs
  | EBuf n idx => zs <- mapM (evalI r) idx ;; readF n zs
  end.

Lemma chk_ok z : inB L z -> chk z = Ok z.
Proof. intros H. unfold chk. apply inBb_spec in H. now rewrite H. Qed.
Lemma chk_inv z y : chk z = Ok y -> y = z /\ inB L z.
Proof. unfold chk. destruct (inBb L z) eqn:E; [|discriminate]. intros H; injection H as <-. split; auto. now apply inBb_spec. Qed.
Lemma chk_noraise z : chk z <> Raise.
Proof. unfold chk. destruct (inBb L z); discriminate. Qed.

Lemma evalI_noraise r e : evalI r e <> Raise.
Proof.
  induction e using expr_ind'; cbn; try discriminate.
  - destruct (r l); cbn; [apply chk_noraise|discriminate].
  - apply chk_noraise.
  - destruct (evalI r e1); cbn; try congruence. destruct (evalI r e2); cbn; try congruence.
    destruct b; cbn; try discriminate; try apply chk_noraise;
      try (destruct (0 <? a0); [apply chk_noraise|discriminate]).
    destruct (_ && _); discriminate.
Qed.
Lemma mapM_evalI_noraise r l : mapM (evalI r) l <> Raise.
Proof.
  induction l as [|x l IH]; cbn; [discriminate|].
  pose proof (evalI_noraise r x). destruct (evalI r x); cbn; try congruence.
  destruct (mapM (evalI r) l); cbn; congruence.
Qed.

(* two languages/environments giving the same value for every index *)
Lemma evalI_ext r r' e : (forall l, r l = r' l) -> evalI r e = evalI r' e.
Proof. intros H. induction e using expr_ind'; cbn; auto. - now rewrite H. - now rewrite IHe1, IHe2. Qed.

(* ------------------------------------------------------------------ refinement on non-faulting results *)
Definition refines {A} (x y : res A) : Prop := x <> Fault -> y = x.
Lemma refines_refl {A} (x : res A) : refines x x.
Proof. intros _. reflexivity. Qed.
Lemma refines_bind {A B} (x y : res A) (f g : A -> res B) :
  refines x y -> (forall a, x = Ok a -> refines (f a) (g a)) -> refines (rbind x f) (rbind y g).
Proof.
  intros H1 H2 HN. destruct x; cbn in *; try congruence.
  - rewrite H1 by discriminate. cbn. apply H2; auto.
  - rewrite H1 by discriminate. reflexivity.
Qed.
Lemma refines_trans {A} (x y z : res A) : refines x y -> refines y z -> refines x z.
Proof. intros H1 H2 HN. rewrite H2; rewrite H1; auto. Qed.

Definition subst_ok (r r' : ienv) (s : ireplace) : Prop :=
  forall l z, r' l = Some z -> exists e, ilookup s l = Some e /\ evalI r e = Ok z.

Lemma replace_evalI r r' s e e' : subst_ok r r' s ->
  replace_index s e = Done e' -> refines (evalI r' e) (evalI r e').
Proof.
  intros Hs. revert e'. induction e using expr_ind'; cbn; intros e' HE; try (intros HN; congruence).
  - unfold throw_none in HE. destruct (ilookup s l) as [el|] eqn:El; [|discriminate].
    injection HE as ->. destruct (r' l) as [z|] eqn:Er; cbn; [|intros HN; congruence].
    destruct (Hs _ _ Er) as (e2 & H1 & H2). rewrite El in H1. injection H1 as ->.
    intros HN. rewrite H2. unfold chk in *. destruct (inBb L z); congruence.
  - injection HE as <-. apply refines_refl.
  - apply obind_done in HE as (x' & Hx & HE). apply obind_done in HE as (y' & Hy & HE). injection HE as <-.
    cbn. apply refines_bind; [now apply IHe1|]. intros u Hu. apply refines_bind; [now apply IHe2|].
    intros; apply refines_refl.
Qed.

Fixpoint many_replace (s : ireplace) (l : list expr) : outcome (list expr) :=
  match l with [] => Done [] | x :: l' => y <~ replace_index s x ;; ys <~ many_replace s l' ;; Done (y :: ys) end.
Lemma replace_func s f idx : replace_index s (EFunc f idx) = (idx' <~ many_replace s idx ;; Done (EFunc f idx')).
Proof. cbn [replace_index]. f_equal. induction idx as [|x l IH]; cbn [many_replace]; [reflexivity|]. now rewrite IH. Qed.
Lemma replace_buf s n idx : replace_index s (EBuf n idx) = (idx' <~ many_replace s idx ;; Done (EBuf n idx')).
Proof. cbn [replace_index]. f_equal. induction idx as [|x l IH]; cbn [many_replace]; [reflexivity|]. now rewrite IH. Qed.

Lemma replace_evalIs r r' s es es' : subst_ok r r' s ->
  many_replace s es = Done es' -> refines (mapM (evalI r') es) (mapM (evalI r) es').
Proof.
  intros Hs. revert es'. induction es as [|e es IH]; cbn; intros es' HE.
  - injection HE as <-. apply refines_refl.
  - apply obind_done in HE as (x' & Hx & HE). apply obind_done in HE as (y' & Hy & HE). injection HE as <-.
    cbn. apply refines_bind; [eapply replace_evalI; eauto|]. intros u Hu.
    apply refines_bind; [now apply IH|]. intros; apply refines_refl.
Qed.

(* substitution at value level; reductions are never substituted into *)
Lemma replace_evalV dt r r' s e e' : subst_ok r r' s -> has_reduce e = false ->
  replace_index s e = Done e' -> refines (evalV dt e r') (evalV dt e' r).
Proof.
  intros Hs. revert e'. induction e using expr_ind'; intros e' HR HE.
  - cbn. intros HN; congruence.
  - cbn in HE. injection HE as <-. apply refines_refl.
  - cbn in HE, HR. apply orb_false_iff in HR as [HR1 HR2].
    apply obind_done in HE as (x' & Hx & HE). apply obind_done in HE as (y' & Hy & HE). injection HE as <-.
    cbn. apply refines_bind; [now apply IHe1|]. intros u Hu. apply refines_bind; [now apply IHe2|].
    intros; apply refines_refl.
  - cbn in HE, HR. apply obind_done in HE as (x' & Hx & HE). injection HE as <-.
    cbn. apply refines_bind; [now apply IHe|]. intros; apply refines_refl.
  - cbn in HE, HR. apply orb_false_iff in HR as [HR HR3]. apply orb_false_iff in HR as [HR1 HR2].
    apply obind_done in HE as (c' & Hc & HE). apply obind_done in HE as (t' & Ht & HE).
    apply obind_done in HE as (f' & Hf & HE). injection HE as <-.
    cbn. apply refines_bind; [eapply replace_evalI; eauto|]. intros z Hz.
    apply refines_bind; [|intros; apply refines_refl].
    destruct (z =? 0); [now apply IHe3|now apply IHe2].
  - discriminate.
  - rewrite replace_func in HE. apply obind_done in HE as (idx' & Hi & HE). injection HE as <-.
    cbn. apply refines_bind; [eapply replace_evalIs; eauto|]. intros; apply refines_refl.
  - rewrite replace_buf in HE. apply obind_done in HE as (idx' & Hi & HE). injection HE as <-.
    cbn. apply refines_bind; [eapply replace_evalIs; eauto|]. intros; apply refines_refl.
Qed.

(* ------------------------------------------------------------------ nested loops = one fold *)
Fixpoint sum_it (dt : dtype) (body : Z -> V -> res V) (zs : list Z) (acc : V) : res V :=
  match zs with [] => Ok acc | z :: zs' => acc' <- body z acc ;; sum_it dt body zs' acc' end.

Lemma sum_loops_cons dt l red body r acc :
  sum_loops dt (l :: red) body r acc =
  sum_it dt (fun z a => sum_loops dt red body (ibind l z r) a) (zrange (l_ext l)) acc.
Proof.
  cbn [sum_loops]. generalize (zrange (l_ext l)). intros zs. revert acc.
  induction zs as [|z zs IH]; intros acc; cbn [sum_it]; [reflexivity|].
  destruct (sum_loops dt red body (ibind l z r) acc); cbn; auto.
Qed.

Lemma fold_res_app (f : V -> V -> res V) xs ys acc :
  fold_res f acc (xs ++ ys) = (a <- fold_res f acc xs ;; fold_res f a ys).
Proof.
  revert acc; induction xs as [|x xs IH]; intros acc; cbn; [reflexivity|].
  destruct x; cbn; auto. destruct (f acc a); cbn; auto.
Qed.

Lemma sum_loops_fold dt red body r acc :
  sum_loops dt red body r acc =
  fold_res (op2 L dt BAdd) acc (map (fun zs => body (ibinds red zs r)) (all_idx (map l_ext red))).
Proof.
  revert r acc. induction red as [|l red IH]; intros r acc.
  - cbn. destruct (body r); cbn; auto. destruct (op2 L dt BAdd acc a); reflexivity.
  - rewrite sum_loops_cons. cbn [map all_idx]. revert acc.
    induction (zrange (l_ext l)) as [|z zs IHz]; intros acc; cbn [sum_it flat_map]; [reflexivity|].
    rewrite map_app, fold_res_app, IH, map_map. cbn [ibinds].
    destruct (fold_res _ acc _); cbn [rbind]; auto.
Qed.

Lemma fold_res_refines (f : V -> V -> res V) xs ys acc :
  Forall2 (fun x y => refines x y) xs ys -> refines (fold_res f acc xs) (fold_res f acc ys).
Proof.
  intros H; revert acc; induction H as [|x y xs ys Hxy _ IH]; intros acc; cbn; [apply refines_refl|].
  apply refines_bind; auto. intros a Ha. apply refines_bind; [apply refines_refl|]. intros; apply IH.
Qed.

(* ------------------------------------------------------------------ the dtype only matters when something is computed *)
Definition valop (e : expr) : bool :=
  match e with EBin _ _ _ | EUn _ _ | EWhere _ _ _ | ESum _ _ => true | _ => false end.
Lemma evalV_dt dt dt' e r : (valop e = true -> forall v, coerce L dt v = coerce L dt' v) -> evalV dt e r = evalV dt' e r.
Proof.
  destruct (valop e) eqn:E.
  - intros H. specialize (H eq_refl). clear E. revert r. induction e using expr_ind'; intros r; cbn [evalV]; auto.
    + rewrite IHe1, IHe2. destruct (evalV dt' e1 r); cbn; auto. destruct (evalV dt' e2 r); cbn; auto.
      unfold op2. destruct (bin L b a a0); cbn; auto. now rewrite H.
    + rewrite IHe. destruct (evalV dt' e r); cbn; auto. unfold op1. destruct (un L u a); cbn; auto. now rewrite H.
    + rewrite IHe2, IHe3. destruct (evalI r e1); cbn; auto. destruct (a =? 0).
      * destruct (evalV dt' e3 r); cbn; auto. now rewrite H.
      * destruct (evalV dt' e2 r); cbn; auto. now rewrite H.
    + rewrite !sum_loops_fold, H.
      assert (HF : forall xs acc, fold_res (op2 L dt BAdd) acc xs = fold_res (op2 L dt' BAdd) acc xs).
      { induction xs as [|x xs IHx]; intros acc; cbn; auto. destruct x; cbn; auto.
        unfold op2 at 1 3. destruct (bin L BAdd acc a); cbn; auto. now rewrite H. }
      rewrite HF. f_equal. apply map_ext. intros. apply IHe.
  - intros _. destruct e; cbn in *; auto; discriminate.
Qed.

End Sem.

(* the arrays a computation depends on *)
Inductive cone (g : graph) (a : nat) : nat -> Prop :=
| cone_self : cone g a a
| cone_step n nd b : cone g a n -> nth_error g n = Some nd -> In b (n_in nd) -> cone g a b.

(* integers that appear in index arithmetic stay below the exactness bound *)
Definition op_steps (o : nop) : list Z :=
  match o with
  | OSlice subs => flat_map (fun s => match s with NSInt _ => [] | NSSlice _ _ st => [st] end) subs
  | ODilate _ st => [st]
  | _ => []
  end.
Definition fits (L : lang) (g : graph) (a : nat) : Prop :=
  forall n nd, cone g a n -> nth_error g n = Some nd ->
    ltB L (zprod (n_shape nd)) /\ Forall (ltB L) (op_steps (n_op nd)).
(* operations that convert their result to a dtype *)
Definition computes (o : nop) : bool :=
  match o with OUn _ | OBin _ | OSum _ _ | OPad _ _ _ | ODilate _ _ => true | _ => false end.
Definition one_dtype (L : valg) (g : graph) (a : nat) (D : dtype) : Prop :=
  forall n nd, cone g a n -> nth_error g n = Some nd -> computes (n_op nd) = true ->
    forall v, coerce L (n_dtype nd) v = coerce L D v.
(* a reshape to shape () is never converted (see finding: TypeError) *)
Definition no_scalar_reshape (g : graph) (a : nat) : Prop :=
  forall n nd, cone g a n -> nth_error g n = Some nd -> n_op nd <> OReshape [].

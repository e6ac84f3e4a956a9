(* Conversion of a copy is the copy of the conversion. *)
From Verif Require Import Base BaseFacts Util UtilFacts Lang Spec Graph Api Algo Copy.

Definition omap {A B} (f : A -> B) (x : outcome A) : outcome B := match x with Done a => Done (f a) | Throw e => Throw e end.
Lemma omap_bind {A B C} (f : B -> C) (x : outcome A) k : omap f (obind x k) = obind x (fun v => omap f (k v)).
Proof. destruct x; reflexivity. Qed.
Lemma bind_omap {A B C} (f : A -> B) (x : outcome A) (k : B -> outcome C) : obind (omap f x) k = obind x (fun v => k (f v)).
Proof. destruct x; reflexivity. Qed.
Lemma bind_ext {A B} (x : outcome A) (k k' : A -> outcome B) : (forall v, k v = k' v) -> obind x k = obind x k'.
Proof. intros H. destruct x; cbn; auto. Qed.

Section Rename.
Context (r : nat -> nat) (Hinj : forall n m, r n = r m -> n = m).

Definition rnl (l : lidx) : lidx := mkL (r (l_own l)) (l_red l) (l_pos l) (l_ext l).
Fixpoint rne (e : expr) : expr :=
  match e with
  | EIdx l => EIdx (rnl l)
  | EConst z => EConst z
  | EBin b x y => EBin b (rne x) (rne y)
  | EUn u x => EUn u (rne x)
  | EWhere c t f => EWhere (rne c) (rne t) (rne f)
  | ESum x red => ESum (rne x) (map rnl red)
  | EFunc f idx => EFunc (r f) (map rne idx)
  | EBuf n idx => EBuf (r n) (map rne idx)
  end.
Definition rnf (fd : func) : func := mkF (map rnl (f_loops fd)) (f_shape fd) (f_dtype fd) (rne (f_expr fd)) (r (f_out fd)).

Lemma reqb n m : Nat.eqb (r n) (r m) = Nat.eqb n m.
Proof. destruct (Nat.eqb n m) eqn:E; [apply Nat.eqb_eq in E; subst; apply Nat.eqb_refl|]. apply Nat.eqb_neq in E. apply Nat.eqb_neq. auto. Qed.
Lemma rnl_eqb a b : lidx_eqb (rnl a) (rnl b) = lidx_eqb a b.
Proof. unfold lidx_eqb, rnl. cbn. now rewrite reqb. Qed.

(* ---- lists *)
Lemma znth_map {A B} (f : A -> B) l z : znth (map f l) z = option_map f (znth l z).
Proof. unfold znth. destruct (z <? 0); auto. apply nth_error_map. Qed.
Lemma pynth_map {A B} (f : A -> B) l z : pynth (map f l) z = option_map f (pynth l z).
Proof. unfold pynth. rewrite map_length, !znth_map. now destruct (z <? 0). Qed.
Lemma throw_map {A B} (f : A -> B) e o : throw_none e (option_map f o) = omap f (throw_none e o).
Proof. destruct o; reflexivity. Qed.
Lemma mapOut_ext {A B} (f f' : A -> outcome B) l : (forall x, In x l -> f x = f' x) -> mapOut f l = mapOut f' l.
Proof. induction l as [|x l IH]; cbn; intros H; auto. rewrite H by now left. rewrite IH by auto. reflexivity. Qed.
Lemma mapOut_omap {A B C} (f : A -> outcome B) (h : B -> C) l : mapOut (fun x => omap h (f x)) l = omap (map h) (mapOut f l).
Proof. induction l as [|x l IH]; cbn; auto. destruct (f x); cbn; auto. rewrite IH. destruct (mapOut f l); reflexivity. Qed.
Lemma mapi_map {A B C} (f : nat -> A -> B) (h : B -> C) l : forall k, mapi_from k (fun i x => h (f i x)) l = map h (mapi_from k f l).
Proof. induction l as [|x l IH]; cbn; intros; auto. now rewrite IH. Qed.
Lemma enum_map {A B} (f : A -> B) l : forall k, enum k (map f l) = map (fun p => (fst p, f (snd p))) (enum k l).
Proof. induction l as [|x l IH]; cbn; intros; auto. now rewrite IH. Qed.

Lemma out_loops_rn a s : out_loops (r a) s = map rnl (out_loops a s).
Proof. unfold out_loops. rewrite <- mapi_map. reflexivity. Qed.

Lemma conv_transpose_rn loops axes : conv_transpose (map rnl loops) axes = omap (map rne) (conv_transpose loops axes).
Proof.
  unfold conv_transpose. rewrite <- mapOut_omap. apply mapOut_ext. intros k _. destruct (throw_none IndexErr (znth (argsort axes) k)); cbn; auto.
  rewrite pynth_map. destruct (pynth loops a); reflexivity.
Qed.
Lemma conv_broadcast_rn loops t s : conv_broadcast (map rnl loops) t s = omap (map rne) (conv_broadcast loops t s).
Proof.
  unfold conv_broadcast. rewrite <- mapOut_omap. apply mapOut_ext. intros k _. destruct (throw_none IndexErr (pynth _ _)); cbn; auto.
  destruct (_ =? _); cbn; auto. rewrite pynth_map. destruct (pynth loops _); reflexivity.
Qed.
Lemma conv_slice_rn subs : forall loops, conv_slice (map rnl loops) subs = omap (map rne) (conv_slice loops subs).
Proof.
  induction subs as [|[s|a b c] subs IH]; intros loops; cbn; auto.
  - rewrite IH. destruct (conv_slice loops subs); reflexivity.
  - destruct loops as [|l loops]; cbn; auto. rewrite IH. destruct (conv_slice loops subs); cbn; auto.
    destruct ((a =? 0) && (c =? 1)); cbn; auto. destruct (a =? 0); cbn; auto. destruct (c =? 1); auto.
Qed.
Lemma reduce_add_rn l : reduce_add (map rne l) = omap rne (reduce_add l).
Proof.
  destruct l as [|x l]; cbn; auto. f_equal. revert x. induction l as [|y l IH]; cbn; intros; auto.
  change (EBin BAdd (rne x) (rne y)) with (rne (EBin BAdd x y)). apply IH.
Qed.
Lemma reshape_split_rn st : forall e, conv_reshape_split (rne e) st = map rne (conv_reshape_split e st).
Proof.
  induction st as [|s st IH]; cbn; intros; auto. destruct st as [|s' st]; auto.
  cbn [map rne]. f_equal. exact (IH (EBin BMod e (EConst s))).
Qed.
Lemma conv_reshape_rn loops sh s : conv_reshape (map rnl loops) sh s = omap (map rne) (conv_reshape loops sh s).
Proof.
  unfold conv_reshape.
  replace (map _ (combine (map rnl loops) (strides_from_shape sh))) with (map rne (map (fun '(l, s) => EBin BMul (EIdx l) (EConst s)) (combine loops (strides_from_shape sh)))).
  - rewrite reduce_add_rn, bind_omap, omap_bind. apply bind_ext. intros e. cbn. now rewrite reshape_split_rn.
  - generalize (strides_from_shape sh). induction loops as [|l loops IH]; intros [|x st]; cbn; auto. now rewrite IH.
Qed.
Lemma dict_set_rn d k v : dict_set (map (fun p => (fst p, rnl (snd p))) d) k (rnl v) = map (fun p => (fst p, rnl (snd p))) (dict_set d k v).
Proof. induction d as [|[k' v'] d IH]; cbn; auto. destruct (k' =? k); cbn; auto. now rewrite IH. Qed.
Lemma dict_get_rn d k : dict_get (map (fun p => (fst p, rnl (snd p))) d) k = option_map rnl (dict_get d k).
Proof. induction d as [|[k' v'] d IH]; cbn; auto. now destruct (k' =? k). Qed.
Lemma reduced_dict_rn a axis s : reduced_dict (r a) axis s = omap (map (fun p => (fst p, rnl (snd p)))) (reduced_dict a axis s).
Proof.
  unfold reduced_dict. generalize 0%nat. change (@nil (Z * lidx)) with (map (fun p : Z * lidx => (fst p, rnl (snd p))) []) at 1. generalize (@nil (Z * lidx)).
  induction (zsort axis) as [|x l IH]; intros d i; auto. cbn. destruct (throw_none IndexErr (pynth s x)); cbn; auto.
  change (mkL (r a) true i a0) with (rnl (mkL a true i a0)). rewrite dict_set_rn. apply IH.
Qed.
Lemma reduce_indices_rn axis d dims : forall sp, reduce_indices axis (map (fun p => (fst p, rnl (snd p))) d) dims (map rnl sp) = omap (map rne) (reduce_indices axis d dims sp).
Proof.
  induction dims as [|x dims IH]; intros sp; cbn; auto. destruct (zmem x axis).
  - rewrite dict_get_rn. destruct (dict_get d x); cbn; auto. rewrite IH. destruct (reduce_indices axis d dims sp); reflexivity.
  - destruct sp as [|l sp]; cbn; auto. rewrite IH. destruct (reduce_indices axis d dims sp); reflexivity.
Qed.
Lemma conv_sum_rn a loops axis kd i s : conv_sum (r a) (map rnl loops) axis kd (r i) s = omap rne (conv_sum a loops axis kd i s).
Proof.
  unfold conv_sum. rewrite reduced_dict_rn, bind_omap, omap_bind. apply bind_ext. intros d.
  match goal with |- context [reduce_indices _ _ _ ?x] => replace x with (map rnl (if kd then map snd (filter (fun '(i0, _) => negb (zmem i0 axis)) (enum 0 loops)) else loops)) end.
  - rewrite reduce_indices_rn, bind_omap, omap_bind. apply bind_ext. intros idx. cbn. do 2 f_equal. rewrite !map_map. reflexivity.
  - destruct kd; auto. rewrite enum_map. generalize (enum 0 loops). intros l. induction l as [|[k x] l IH]; cbn; auto. destruct (zmem k axis); cbn; auto. now rewrite IH.
Qed.
Lemma at_dim_rn loops dim f f' : (forall l, f' (rnl l) = rne (f l)) -> at_dim (map rnl loops) dim f' = map rne (at_dim loops dim f).
Proof.
  intros H. unfold at_dim. rewrite enum_map, !map_map. apply map_ext. intros [k l]. cbn. destruct (k =? dim); auto.
Qed.
Lemma conv_pad_rn loops dim b i s : conv_pad (map rnl loops) dim b (r i) s = omap rne (conv_pad loops dim b i s).
Proof.
  unfold conv_pad. rewrite pynth_map, throw_map, bind_omap, omap_bind. apply bind_ext. intros l. rewrite omap_bind. apply bind_ext. intros n. cbn.
  repeat f_equal. apply at_dim_rn. reflexivity.
Qed.
Lemma conv_dilate_rn loops dim st i : conv_dilate (map rnl loops) dim st (r i) = omap rne (conv_dilate loops dim st i).
Proof.
  unfold conv_dilate. rewrite pynth_map, throw_map, bind_omap, omap_bind. apply bind_ext. intros l. cbn.
  repeat f_equal. apply at_dim_rn. reflexivity.
Qed.

(* ---- graphs *)
Context (g1 g2 : graph) (D : nat -> Prop)
  (HD : forall n, D n -> exists x y, nth_error g1 n = Some x /\ nth_error g2 (r n) = Some y /\ same_node r x y /\ Forall D (n_in x)).

Lemma get_rn n : D n -> exists x y, get g1 n = Done x /\ get g2 (r n) = Done y /\ same_node r x y /\ Forall D (n_in x).
Proof. intros H. destruct (HD n H) as (x & y & H1 & H2 & H3). exists x, y. unfold get. rewrite H1, H2. auto. Qed.

Lemma same_map_rn a s : map EIdx (out_loops (r a) s) = map rne (map EIdx (out_loops a s)).
Proof. rewrite out_loops_rn, !map_map. reflexivity. Qed.
Lemma conv_expr_rn a x y : same_node r x y -> Forall D (n_in x) -> D a -> conv_expr g2 (r a) y = omap rne (conv_expr g1 a x).
Proof using HD.
  intros (_ & S2 & _ & _ & So & Si) HF Ha. unfold conv_expr. rewrite S2, Si, out_loops_rn.
  assert (IN : forall k, nth_error (map r (n_in x)) k = option_map r (nth_error (n_in x) k)) by (intros; apply nth_error_map).
  assert (VW : forall mk mk', (forall s, mk' s = omap (map rne) (mk s)) ->
     (i <~ throw_none IndexErr (nth_error (map r (n_in x)) 0) ;; xx <~ get g2 i ;; idx <~ mk' (n_shape xx) ;; Done (EFunc i idx)) =
     omap rne (i <~ throw_none IndexErr (nth_error (n_in x) 0) ;; xx <~ get g1 i ;; idx <~ mk (n_shape xx) ;; Done (EFunc i idx))).
  { intros mk mk' Hmk. rewrite IN. destruct (nth_error (n_in x) 0) as [i|] eqn:E; cbn [option_map throw_none obind omap]; auto.
    assert (Di : D i) by (rewrite Forall_forall in HF; apply HF; eapply nth_error_In; eauto).
    destruct (get_rn i Di) as (xi & yi & -> & -> & (_ & Sh & _) & _). cbn [obind]. rewrite Hmk, Sh. destruct (mk (n_shape xi)); reflexivity. }
  assert (SM : map EIdx (map rnl (out_loops a (n_shape x))) = map rne (map EIdx (out_loops a (n_shape x)))) by (rewrite !map_map; reflexivity).
  destruct (n_op x) eqn:Ox; destruct (n_op y) eqn:Oy; cbn in So; try discriminate; try contradiction;
    try (injection So as; subst).
  all: try match goal with H : ?c = ?d |- _ => injection H; intros; subst; clear H end.
  all: rewrite ?SM.
  all: try (cbn; reflexivity).
  all: try (apply VW; intros; first [apply conv_transpose_rn | apply conv_broadcast_rn | apply conv_slice_rn | apply conv_reshape_rn]).
  all: rewrite ?IN; destruct (nth_error (n_in x) 0) as [i|] eqn:E0; cbn [option_map throw_none obind omap]; auto.
  all: try (destruct (nth_error (n_in x) 1) as [j|] eqn:E1; cbn [option_map throw_none obind omap rne]; auto; fail).
  all: assert (Di : D i) by (rewrite Forall_forall in HF; apply HF; eapply nth_error_In; eauto).
  all: destruct (get_rn i Di) as (xi & yi & G1 & G2 & (_ & Sh & _) & _); rewrite ?G1, ?G2; cbn [obind]; rewrite ?Sh.
  all: first [apply conv_sum_rn | apply conv_pad_rn | apply conv_dilate_rn
             | rewrite conv_transpose_rn; destruct (conv_transpose _ _); reflexivity
             | rewrite conv_slice_rn; destruct (conv_slice _ _); reflexivity].
Qed.

(* expressions over D *)
Fixpoint De (e : expr) : Prop :=
  match e with
  | EIdx _ | EConst _ => True
  | EBin _ x y => De x /\ De y
  | EUn _ x | ESum x _ => De x
  | EWhere c t f => De c /\ De t /\ De f
  | EFunc f idx => D f /\ fold_right (fun x P => De x /\ P) True idx
  | EBuf n idx => D n /\ fold_right (fun x P => De x /\ P) True idx
  end.
Lemma De_all l : fold_right (fun x P => De x /\ P) True l <-> Forall De l.
Proof. induction l as [|x l IH]; cbn; split; auto; intros H; [destruct H; constructor; tauto|inversion H; tauto]. Qed.
Definition Erel (E E' : fenv) : Prop := forall n, D n -> E' (r n) = option_map rnf (E n).
Definition EDe (E : fenv) : Prop := forall n fd, E n = Some fd -> De (f_expr fd).

Lemma De_idx l : Forall De (map EIdx l).
Proof. apply Forall_forall. intros x Hx. apply in_map_iff in Hx as (y & <- & _). exact I. Qed.
Lemma mapOut_Forall {A B} (P : B -> Prop) (f : A -> outcome B) l v : mapOut f l = Done v -> (forall x y, f x = Done y -> P y) -> Forall P v.
Proof.
  revert v. induction l as [|x l IH]; cbn; intros v H HP; [injection H as <-; auto|].
  destruct (f x) eqn:E; cbn in H; [|discriminate]. destruct (mapOut f l) eqn:E2; cbn in H; [|discriminate]. injection H as <-. constructor; eauto.
Qed.
Lemma conv_slice_De subs : forall loops v, conv_slice loops subs = Done v -> Forall De v.
Proof.
  induction subs as [|[s|a b c] subs IH]; intros loops v H; cbn in H; [injection H as <-; auto|..].
  - destruct (conv_slice loops subs) eqn:E; cbn in H; [|discriminate]. injection H as <-. constructor; [exact I|eauto].
  - destruct loops as [|l loops]; [discriminate|]. destruct (conv_slice loops subs) eqn:E; cbn in H; [|discriminate]. injection H as <-. constructor; eauto.
    destruct ((a =? 0) && (c =? 1)); [exact I|]. destruct (a =? 0); [cbn; auto|]. destruct (c =? 1); cbn; auto.
Qed.
Lemma reshape_split_De st : forall e, De e -> Forall De (conv_reshape_split e st).
Proof.
  induction st as [|s st IH]; intros e H; cbn; auto. destruct st as [|s' st]; auto. constructor; [cbn; auto|]. apply IH. cbn. auto.
Qed.
Lemma reduce_indices_De axis d dims : forall sp v, reduce_indices axis d dims sp = Done v -> Forall De v.
Proof.
  induction dims as [|x dims IH]; intros sp v H; cbn in H; [injection H as <-; auto|]. destruct (zmem x axis).
  - destruct (throw_none KeyErr (dict_get d x)); cbn in H; [|discriminate]. destruct (reduce_indices axis d dims sp) eqn:E; cbn in H; [|discriminate]. injection H as <-. constructor; [exact I|eauto].
  - destruct sp as [|l sp]; [discriminate|]. destruct (reduce_indices axis d dims sp) eqn:E; cbn in H; [|discriminate]. injection H as <-. constructor; [exact I|eauto].
Qed.
Lemma at_dim_De loops dim f : (forall l, De (f l)) -> Forall De (at_dim loops dim f).
Proof. intros H. apply Forall_forall. intros x Hx. unfold at_dim in Hx. apply in_map_iff in Hx as ([k l] & <- & _). destruct (k =? dim); [auto|exact I]. Qed.

Ltac bx H := match type of H with obind ?q _ = _ => destruct q; cbn [obind] in H; [|discriminate] end.
Lemma conv_expr_De a x e : Forall D (n_in x) -> D a -> conv_expr g1 a x = Done e -> De e.
Proof using HD.
  intros HF Ha H. unfold conv_expr in H.
  assert (IN : forall k i, nth_error (n_in x) k = Some i -> D i) by (intros k i E; rewrite Forall_forall in HF; apply HF; eapply nth_error_In; eauto).
  assert (VW : forall mk, (forall s v, mk s = Done v -> Forall De v) ->
     (i <~ throw_none IndexErr (nth_error (n_in x) 0) ;; xx <~ get g1 i ;; idx <~ mk (n_shape xx) ;; Done (EFunc i idx)) = Done e -> De e).
  { intros mk Hmk HH. destruct (nth_error (n_in x) 0) as [i|] eqn:E; cbn [throw_none obind] in HH; [|discriminate].
    destruct (get g1 i); cbn [obind] in HH; [|discriminate]. destruct (mk (n_shape a0)) eqn:Em; cbn in HH; [|discriminate]. injection HH as <-. cbn. split; eauto. apply De_all. eauto. }
  destruct (n_op x).
  - injection H as <-. cbn. split; auto. apply De_all, De_idx.
  - destruct (nth_error (n_in x) 0) eqn:E0; cbn [throw_none obind] in H; [|discriminate]. injection H as <-. cbn. split; eauto. apply De_all, De_idx.
  - destruct (nth_error (n_in x) 0) eqn:E0; cbn [throw_none obind] in H; [|discriminate]. destruct (nth_error (n_in x) 1) eqn:E1; cbn [throw_none obind] in H; [|discriminate].
    injection H as <-. cbn. repeat split; eauto; apply De_all, De_idx.
  - destruct (nth_error (n_in x) 0) eqn:E0; cbn [throw_none obind] in H; [|discriminate]. destruct (get g1 n); cbn [throw_none obind] in H; [|discriminate]. unfold conv_sum in H.
    destruct (reduced_dict _ _ _); cbn [throw_none obind] in H; [|discriminate]. destruct (reduce_indices _ _ _ _) eqn:Er; cbn [throw_none obind] in H; [|discriminate]. injection H as <-. cbn. split; eauto. apply De_all. eapply reduce_indices_De; eauto.
  - eapply VW; [|exact H]. intros s v Hv. unfold conv_reshape in Hv. destruct (reduce_add _) eqn:Er; cbn in Hv; [|discriminate]. injection Hv as <-. apply reshape_split_De.
    clear - Er. unfold reduce_add in Er. destruct (combine _ _) as [|[l0 z0] q]; cbn in Er; [discriminate|]. injection Er as <-.
    match goal with |- De (fold_left _ _ ?e0) => assert (He : De e0) by (cbn; auto); revert He; generalize e0 end.
    induction q as [|[l z] q IH]; cbn; intros; auto. apply IH. cbn. auto.
  - eapply VW; [|exact H]. intros s v Hv. cbv beta in Hv. unfold conv_broadcast in Hv. eapply mapOut_Forall; [exact Hv|]. cbv beta. intros k y Hy. bx Hy.
    match type of Hy with (if ?q then _ else _) = _ => destruct q end; [injection Hy as <-; exact I|]. bx Hy. injection Hy as <-. exact I.
  - apply (VW (fun _ => conv_transpose (out_loops a (n_shape x)) axes)); [|exact H]. intros s v Hv. cbv beta in Hv. unfold conv_transpose in Hv. eapply mapOut_Forall; [exact Hv|]. cbv beta. intros k y Hy. bx Hy.
    bx Hy. injection Hy as <-. exact I.
  - apply (VW (fun _ => conv_slice (out_loops a (n_shape x)) subs)); [|exact H]. intros s v Hv. eapply conv_slice_De; eauto.
  - destruct (nth_error (n_in x) 0) eqn:E0; cbn [throw_none obind] in H; [|discriminate]. injection H as <-. cbn. split; eauto. apply De_all, De_idx.
  - destruct (nth_error (n_in x) 0) eqn:E0; cbn [throw_none obind] in H; [|discriminate]. destruct (get g1 n); cbn [throw_none obind] in H; [|discriminate]. unfold conv_pad in H.
    bx H. bx H. injection H as <-. cbn. repeat split; eauto. apply De_all, at_dim_De. cbn. auto.
  - destruct (nth_error (n_in x) 0) eqn:E0; cbn [throw_none obind] in H; [|discriminate]. unfold conv_dilate in H.
    bx H. injection H as <-. cbn. repeat split; eauto. apply De_all, at_dim_De. cbn. auto.
Qed.

Lemma Erel_fset E E' a fd : Erel E E' -> Erel (fset E a fd) (fset E' (r a) (rnf fd)).
Proof using Hinj HD. intros H n Hn. unfold fset. rewrite reqb. destruct (Nat.eqb n a); auto. Qed.
Lemma EDe_fset E a fd : EDe E -> De (f_expr fd) -> EDe (fset E a fd).
Proof. intros H Hf n fd' Hn. unfold fset in Hn. destruct (Nat.eqb n a); [injection Hn as <-; auto|eauto]. Qed.

Lemma arr_to_func_rn k : forall m a E E' E1, (k <= m)%nat -> D a -> Erel E E' -> EDe E -> arr_to_func k g1 a E = Done E1 ->
  exists E1', arr_to_func m g2 (r a) E' = Done E1' /\ Erel E1 E1' /\ EDe E1.
Proof using Hinj HD.
  induction k as [|k IH]; intros m a E E' E1 Hm Ha HE HDe H; [discriminate|]. destruct m as [|m]; [lia|].
  cbn [arr_to_func] in H |- *. rewrite (HE a Ha). destruct (E a) as [fd|] eqn:Ea; cbn [option_map].
  { injection H as <-. eauto. }
  destruct (get_rn a Ha) as (x & y & G1 & G2 & SN & HF). rewrite G1 in H. rewrite G2. cbn [obind] in *.
  destruct (fold_out _ (n_in x) E) as [E2|] eqn:EF; cbn [obind] in H; [|discriminate].
  assert (HFO : exists E2', fold_out (fun i => arr_to_func m g2 i) (n_in y) E' = Done E2' /\ Erel E2 E2' /\ EDe E2).
  { pose proof SN as (_ & _ & _ & _ & _ & Hin). rewrite Hin. clear Hin; clear Ea H G1 G2 SN. revert E E' E2 HE HDe EF HF. clear - IH Hm. induction (n_in x) as [|i l IHl]; intros E E' E2 HE HDe EF HF; cbn in EF |- *.
    - injection EF as <-. eauto.
    - inversion HF as [|? ? Di HF']; subst. destruct (arr_to_func k g1 i E) as [E3|] eqn:E4; cbn in EF; [|discriminate].
      destruct (IH m i E E' E3 ltac:(lia) Di HE HDe E4) as (E3' & -> & R3 & D3). cbn. eauto. }
  destruct HFO as (E2' & -> & R2 & D2). cbn [obind]. rewrite (conv_expr_rn a x y SN HF Ha).
  destruct (conv_expr g1 a x) as [e|] eqn:EC; cbn [omap obind] in *; [|discriminate]. injection H as <-.
  destruct SN as (Sd & Ss & _). rewrite Sd, Ss. eexists. split; [reflexivity|]. rewrite out_loops_rn. split.
  - apply (Erel_fset E2 E2' a (mkF _ _ _ _ _) R2).
  - apply EDe_fset; auto. cbn. eapply conv_expr_De; eauto.
Qed.

(* ---- the expression passes *)
Lemma has_reduce_rn e : has_reduce (rne e) = has_reduce e.
Proof. induction e; cbn; auto; congruence. Qed.
Lemma is_buf_rn e : is_buf (rne e) = is_buf e.
Proof. destruct e; reflexivity. Qed.
Definition rnr (p : lidx * expr) : lidx * expr := (rnl (fst p), rne (snd p)).
Lemma ilookup_rn R l : ilookup (map rnr R) (rnl l) = option_map rne (ilookup R l).
Proof using Hinj HD. induction R as [|[k e] R IH]; cbn; auto. rewrite rnl_eqb. destruct (lidx_eqb k l); auto. Qed.
Lemma expr_rect' (P : expr -> Prop)
  (H1 : forall l, P (EIdx l)) (H2 : forall z, P (EConst z)) (H3 : forall b x y, P x -> P y -> P (EBin b x y)) (H4 : forall u x, P x -> P (EUn u x))
  (H5 : forall c t f, P c -> P t -> P f -> P (EWhere c t f)) (H6 : forall x red, P x -> P (ESum x red))
  (H7 : forall f idx, Forall P idx -> P (EFunc f idx)) (H8 : forall n idx, Forall P idx -> P (EBuf n idx)) : forall e, P e.
Proof.
  fix go 1. intros [l|z|b x y|u x|c t f|x red|f idx|n idx].
  - apply H1. - apply H2. - apply H3; apply go. - apply H4; apply go. - apply H5; apply go. - apply H6; apply go.
  - apply H7. induction idx as [|x l IH]; constructor; [apply go|exact IH].
  - apply H8. induction idx as [|x l IH]; constructor; [apply go|exact IH].
Qed.
Lemma replace_index_rn R e : replace_index (map rnr R) (rne e) = omap rne (replace_index R e).
Proof using Hinj HD.
  induction e using expr_rect'; cbn [rne replace_index].
  - rewrite ilookup_rn. apply throw_map.
  - reflexivity.
  - rewrite IHe1. destruct (replace_index R e1); cbn; auto. rewrite IHe2. destruct (replace_index R e2); reflexivity.
  - rewrite IHe. destruct (replace_index R e); reflexivity.
  - rewrite IHe1. destruct (replace_index R e1); cbn; auto. rewrite IHe2. destruct (replace_index R e2); cbn; auto. rewrite IHe3. destruct (replace_index R e3); reflexivity.
  - rewrite IHe. destruct (replace_index R e); reflexivity.
  - match goal with |- obind (?F (map rne idx)) _ = _ => assert (HM : F (map rne idx) = omap (map rne) ((fix many (l : list expr) : outcome (list expr) :=
      match l with [] => Done [] | x :: l' => y <~ replace_index R x ;; ys <~ many l' ;; Done (y :: ys) end) idx)) end.
    { induction idx as [|x idx IH]; auto. inversion H as [|? ? Hx Hi]; subst. cbn [map]. rewrite Hx. destruct (replace_index R x); cbn; auto. rewrite (IH Hi). match goal with |- context [omap _ ?z] => destruct z; reflexivity end. }
    rewrite HM. match goal with |- context [omap _ ?z] => destruct z; reflexivity end.
  - match goal with |- obind (?F (map rne idx)) _ = _ => assert (HM : F (map rne idx) = omap (map rne) ((fix many (l : list expr) : outcome (list expr) :=
      match l with [] => Done [] | x :: l' => y <~ replace_index R x ;; ys <~ many l' ;; Done (y :: ys) end) idx)) end.
    { induction idx as [|x idx IH]; auto. inversion H as [|? ? Hx Hi]; subst. cbn [map]. rewrite Hx. destruct (replace_index R x); cbn; auto. rewrite (IH Hi). match goal with |- context [omap _ ?z] => destruct z; reflexivity end. }
    rewrite HM. match goal with |- context [omap _ ?z] => destruct z; reflexivity end.
Qed.
Lemma ilookup_De R l e : Forall (fun p => De (snd p)) R -> ilookup R l = Some e -> De e.
Proof. induction R as [|[k x] R IH]; cbn; intros HR H; [discriminate|]. inversion HR; subst. destruct (lidx_eqb k l); [injection H as <-; auto|auto]. Qed.
Lemma replace_index_De R e : Forall (fun p => De (snd p)) R -> forall e', De e -> replace_index R e = Done e' -> De e'.
Proof.
  intros HR. induction e using expr_rect'; intros e' HDe HX; cbn [De replace_index] in *.
  - destruct (ilookup R l) eqn:E; cbn in HX; [|discriminate]. injection HX as <-. eapply ilookup_De; eauto.
  - injection HX as <-. exact I.
  - destruct HDe. destruct (replace_index R e1) eqn:E1; cbn in HX; [|discriminate]. destruct (replace_index R e2) eqn:E2; cbn in HX; [|discriminate]. injection HX as <-. cbn. auto.
  - destruct (replace_index R e) eqn:E1; cbn in HX; [|discriminate]. injection HX as <-. cbn. auto.
  - destruct HDe as (? & ? & ?). destruct (replace_index R e1) eqn:E1; cbn in HX; [|discriminate]. destruct (replace_index R e2) eqn:E2; cbn in HX; [|discriminate].
    destruct (replace_index R e3) eqn:E3; cbn in HX; [|discriminate]. injection HX as <-. cbn. auto.
  - destruct (replace_index R e) eqn:E1; cbn in HX; [|discriminate]. injection HX as <-. cbn. auto.
  - destruct HDe as [Df Di]. match type of HX with obind ?x _ = _ => destruct x as [v|] eqn:EX; cbn in HX; [|discriminate] end. injection HX as <-. cbn. split; auto. clear Df.
    revert v EX. induction idx as [|x idx IH]; intros v EX; [injection EX as <-; exact I|]. inversion H as [|? ? Hx Hi]; subst. destruct Di as [Dx Di].
    destruct (replace_index R x) eqn:E1; cbn in EX; [|discriminate]. match type of EX with obind ?x _ = _ => destruct x as [v'|] eqn:EX'; cbn in EX; [|discriminate] end. injection EX as <-. cbn. split; eauto.
  - destruct HDe as [Df Di]. match type of HX with obind ?x _ = _ => destruct x as [v|] eqn:EX; cbn in HX; [|discriminate] end. injection HX as <-. cbn. split; auto. clear Df.
    revert v EX. induction idx as [|x idx IH]; intros v EX; [injection EX as <-; exact I|]. inversion H as [|? ? Hx Hi]; subst. destruct Di as [Dx Di].
    destruct (replace_index R x) eqn:E1; cbn in EX; [|discriminate]. match type of EX with obind ?x _ = _ => destruct x as [v'|] eqn:EX'; cbn in EX; [|discriminate] end. injection EX as <-. cbn. split; eauto.
Qed.

(* reference counts *)
Definition Rrel (rc rc' : refs) : Prop := forall n, rc' (r n) = rc n.
Lemma rinc_rn rc rc' f : Rrel rc rc' -> Rrel (rinc rc f) (rinc rc' (r f)).
Proof using Hinj HD. intros H n. unfold rinc. rewrite reqb, H. reflexivity. Qed.
Lemma cr_bin k E b x y rc : count_refs k E (EBin b x y) rc = obind (count_refs k E x rc) (fun rc1 => count_refs k E y rc1).
Proof. destruct k; reflexivity. Qed.
Lemma cr_un k E u x rc : count_refs k E (EUn u x) rc = count_refs k E x rc.
Proof. destruct k; reflexivity. Qed.
Lemma cr_sum k E x red rc : count_refs k E (ESum x red) rc = count_refs k E x rc.
Proof. destruct k; reflexivity. Qed.
Lemma cr_where k E c t f rc : count_refs k E (EWhere c t f) rc = obind (count_refs k E c rc) (fun rc1 => obind (count_refs k E t rc1) (fun rc2 => count_refs k E f rc2)).
Proof. destruct k; reflexivity. Qed.
Lemma cr_func k E f idx rc : count_refs k E (EFunc f idx) rc =
  if Nat.eqb (rinc rc f f) 1 then match k with O => Throw InternalErr | S k' => obind (throw_none InternalErr (E f)) (fun fd => count_refs k' E (f_expr fd) (rinc rc f)) end else Done (rinc rc f).
Proof. destruct k; reflexivity. Qed.
Lemma count_refs_rn E E' : Erel E E' -> EDe E -> forall k m e rc rc' rc1, (k <= m)%nat -> De e -> Rrel rc rc' -> count_refs k E e rc = Done rc1 ->
  exists rc1', count_refs m E' (rne e) rc' = Done rc1' /\ Rrel rc1 rc1'.
Proof using Hinj HD.
  intros HE HDe. induction k as [|k IHk]; intros m e; induction e using expr_rect'; intros rc rc' rc1 Hm He HR HX; cbn [rne];
    rewrite ?cr_bin, ?cr_un, ?cr_sum, ?cr_where, ?cr_func in *; cbn [De] in He.
  all: try (destruct m; cbn in *; injection HX as <-; eauto; fail).
  all: try (destruct (IHe rc rc' rc1 Hm He HR HX) as (r1' & Y1 & R1); exists r1'; auto; fail).
  all: try (destruct He as [He1 He2]; destruct (count_refs _ E e1 rc) as [r1|] eqn:X1; cbn [obind] in HX; [|discriminate];
     destruct (IHe1 rc rc' r1 Hm He1 HR X1) as (r1' & -> & R1); cbn [obind]; eauto; fail).
  all: try (destruct He as (He1 & He2 & He3); destruct (count_refs _ E e1 rc) as [r1|] eqn:X1; cbn [obind] in HX; [|discriminate]; destruct (count_refs _ E e2 r1) as [r2|] eqn:X2; cbn [obind] in HX; [|discriminate];
     destruct (IHe1 rc rc' r1 Hm He1 HR X1) as (r1' & -> & R1); cbn [obind]; destruct (IHe2 r1 r1' r2 Hm He2 R1 X2) as (r2' & -> & R2); cbn [obind]; eauto; fail).
  - pose proof (rinc_rn rc rc' f HR) as HR1. rewrite (HR1 f). destruct (Nat.eqb (rinc rc f f) 1) eqn:Q; [discriminate|]. injection HX as <-. eauto.
  - pose proof (rinc_rn rc rc' f HR) as HR1. rewrite (HR1 f). destruct (Nat.eqb (rinc rc f f) 1) eqn:Q; [|injection HX as <-; eauto].
    destruct m as [|m]; [lia|]. destruct He as [Df _]. rewrite (HE f Df). destruct (E f) as [fd|] eqn:Ef; cbn [throw_none option_map obind] in *; [|discriminate].
    eapply (IHk m (f_expr fd)); eauto. lia.
Qed.

Lemma combine_rn l idx : combine (map rnl l) (map rne idx) = map rnr (combine l idx).
Proof. revert idx. induction l as [|x l IH]; intros [|y idx]; cbn; auto. now rewrite IH. Qed.
Lemma fusable_rn rc rc' f e : Rrel rc rc' -> fusable rc' (r f) (rne e) = fusable rc f e.
Proof. intros H. unfold fusable. now rewrite is_buf_rn, has_reduce_rn, H. Qed.
Lemma tf_bin k rc b x y E : try_fuse k rc (EBin b x y) E = obind (try_fuse k rc x E) (fun '(x', E1) => obind (try_fuse k rc y E1) (fun '(y', E2) => Done (EBin b x' y', E2))).
Proof. destruct k; reflexivity. Qed.
Lemma tf_un k rc u x E : try_fuse k rc (EUn u x) E = obind (try_fuse k rc x E) (fun '(x', E1) => Done (EUn u x', E1)).
Proof. destruct k; reflexivity. Qed.
Lemma tf_sum k rc x red E : try_fuse k rc (ESum x red) E = obind (try_fuse k rc x E) (fun '(x', E1) => Done (ESum x' red, E1)).
Proof. destruct k; reflexivity. Qed.
Lemma tf_where k rc c t f E : try_fuse k rc (EWhere c t f) E = obind (try_fuse k rc c E) (fun '(c', E1) => obind (try_fuse k rc t E1) (fun '(t', E2) => obind (try_fuse k rc f E2) (fun '(f', E3) => Done (EWhere c' t' f', E3)))).
Proof. destruct k; reflexivity. Qed.
Lemma try_fuse_rn rc rc' : Rrel rc rc' -> forall k m e E E' e1 E1, (k <= m)%nat -> De e -> Erel E E' -> EDe E -> try_fuse k rc e E = Done (e1, E1) ->
  exists E1', try_fuse m rc' (rne e) E' = Done (rne e1, E1') /\ Erel E1 E1' /\ EDe E1 /\ De e1.
Proof using Hinj HD.
  intros HR. induction k as [|k IHk]; intros m e; induction e using expr_rect'; intros E E' e1' E1 Hm He HE HDe HX; cbn [rne];
    rewrite ?tf_bin, ?tf_un, ?tf_sum, ?tf_where in *; cbn [De] in He.
  all: try (destruct m; cbn in *; injection HX as <- <-; exists E'; cbn; auto; fail).
  all: try (destruct He as [He1 He2]; destruct (try_fuse _ rc e1 E) as [[x1 X1]|] eqn:Q1; cbn [obind] in HX; [|discriminate]; destruct (try_fuse _ rc e2 X1) as [[x2 X2]|] eqn:Q2; cbn [obind] in HX; [|discriminate];
    injection HX as <- <-; destruct (IHe1 _ _ _ _ Hm He1 HE HDe Q1) as (F1 & -> & R1 & D1 & Dx1); cbn [obind]; destruct (IHe2 _ _ _ _ Hm He2 R1 D1 Q2) as (F2 & -> & R2 & D2 & Dx2); cbn [obind];
    exists F2; cbn; auto; fail).
  all: try (destruct (try_fuse _ rc e E) as [[x1 X1]|] eqn:Q1; cbn [obind] in HX; [|discriminate];
    injection HX as <- <-; destruct (IHe _ _ _ _ Hm He HE HDe Q1) as (F1 & -> & R1 & D1 & Dx1); exists F1; cbn; auto; fail).
  all: try (destruct He as (He1 & He2 & He3); destruct (try_fuse _ rc e1 E) as [[x1 X1]|] eqn:Q1; cbn [obind] in HX; [|discriminate]; destruct (try_fuse _ rc e2 X1) as [[x2 X2]|] eqn:Q2; cbn [obind] in HX; [|discriminate];
    destruct (try_fuse _ rc e3 X2) as [[x3 X3]|] eqn:Q3; cbn [obind] in HX; [|discriminate];
    injection HX as <- <-; destruct (IHe1 _ _ _ _ Hm He1 HE HDe Q1) as (F1 & -> & R1 & D1 & Dx1); cbn [obind]; destruct (IHe2 _ _ _ _ Hm He2 R1 D1 Q2) as (F2 & -> & R2 & D2 & Dx2); cbn [obind];
    destruct (IHe3 _ _ _ _ Hm He3 R2 D2 Q3) as (F3 & -> & R3 & D3 & Dx3); cbn [obind]; exists F3; cbn; auto 12; fail).
  all: cbn [try_fuse] in HX; try discriminate.
  destruct m as [|m]; [lia|]. destruct He as [Df Di]. cbn [try_fuse]. rewrite (HE f Df).
  destruct (E f) as [fd|] eqn:Ef; cbn [throw_none option_map obind] in *; [|discriminate]. rewrite HR. destruct (Nat.eqb (rc f) 0); [discriminate|].
  cbn [rnf f_expr f_loops]. rewrite (fusable_rn rc rc' f _ HR). destruct (fusable rc f (f_expr fd)); cbn [negb] in *.
  - rewrite combine_rn, replace_index_rn. destruct (replace_index _ _) as [fu|] eqn:Er; cbn [obind omap] in *; [|discriminate].
    assert (Dfu : De fu).
    { eapply replace_index_De; [|exact (HDe _ _ Ef)|exact Er]. apply De_all in Di. clear - Di. revert idx Di. induction (f_loops fd) as [|l ls IH]; intros [|x idx] Di; cbn; auto. inversion Di; subst. constructor; auto. }
    eapply (IHk m fu); eauto. lia.
  - destruct (try_fuse k rc (f_expr fd) E) as [[x1 X1]|] eqn:Q1; cbn [obind] in HX; [|discriminate]. injection HX as <- <-.
    destruct (IHk m (f_expr fd) E E' x1 X1 ltac:(lia) (HDe _ _ Ef) HE HDe Q1) as (F1 & Y1 & R1 & D1 & Dx1). rewrite Y1. cbn [obind].
    eexists. split; [reflexivity|]. split; [|split].
    + change (set_expr (rnf fd) (rne x1)) with (rnf (set_expr fd x1)). now apply Erel_fset.
    + apply EDe_fset; auto.
    + cbn. auto.
Qed.

(* ---- kernel order *)
Lemma func_refs_rn e : func_refs (rne e) = map r (func_refs e).
Proof. induction e; cbn; rewrite ?map_app; try congruence; auto. Qed.
Lemma buf_refs_rn e : buf_refs (rne e) = map r (buf_refs e).
Proof. induction e; cbn; rewrite ?map_app; try congruence; auto. Qed.
Lemma nmem_rn x l : nmem (r x) (map r l) = nmem x l.
Proof using Hinj HD. unfold nmem. induction l as [|y l IH]; cbn; auto. now rewrite reqb, IH. Qed.
Lemma dedup_rn l : forall seen, dedup (map r l) (map r seen) = map r (dedup l seen).
Proof using Hinj HD. induction l as [|x l IH]; cbn; intros; auto. rewrite nmem_rn. destruct (nmem x seen); auto. cbn. f_equal. apply (IH (x :: seen)). Qed.
Lemma func_refs_D e : De e -> Forall D (func_refs e).
Proof.
  induction e using expr_rect'; cbn [De func_refs]; intros He; auto; try (destruct He as [? ?]); try (apply Forall_app; split; auto; fail).
  - destruct H0. repeat (apply Forall_app; split; auto).
  - constructor; auto.
Qed.
Lemma buf_refs_D e : De e -> Forall D (buf_refs e).
Proof.
  induction e using expr_rect'; cbn [De buf_refs]; intros He; auto; try (destruct He as [? ?]); try (apply Forall_app; split; auto; fail).
  - destruct H0. repeat (apply Forall_app; split; auto).
  - constructor; auto.
Qed.
Lemma dedup_In l : forall seen x, In x (dedup l seen) -> In x l.
Proof. induction l as [|y l IH]; cbn; intros seen x H; auto. destruct (nmem y seen); [right; eauto|]. destruct H; [auto|right; eauto]. Qed.
Definition dep_rn e : De e -> dependent_funcs (rne e) = map r (dependent_funcs e) /\ Forall D (dependent_funcs e).
Proof using Hinj HD.
  intros He. unfold dependent_funcs. rewrite func_refs_rn. split; [exact (dedup_rn (func_refs e) [])|].
  pose proof (func_refs_D e He) as HF. rewrite Forall_forall in *. intros x Hx. apply HF. eapply dedup_In; eauto.
Qed.
Lemma order_rn E E' : Erel E E' -> EDe E -> forall k m f seen out seen1 out1, (k <= m)%nat -> D f -> order k E f (seen, out) = Done (seen1, out1) -> Forall D out ->
  order m E' (r f) (map r seen, map r out) = Done (map r seen1, map r out1) /\ Forall D out1.
Proof using Hinj HD.
  intros HE HDe. induction k as [|k IH]; intros m f seen out seen1 out1 Hm Hf HX HO; cbn [order] in HX.
  - destruct (nmem f seen) eqn:Q; [|discriminate]. injection HX as <- <-. split; auto. destruct m; cbn; now rewrite nmem_rn, Q.
  - destruct (nmem f seen) eqn:Q.
    { injection HX as <- <-. split; auto. destruct m; cbn; now rewrite nmem_rn, Q. }
    destruct m as [|m]; [lia|]. cbn [order]. rewrite nmem_rn, Q, (HE f Hf). destruct (E f) as [fd|] eqn:Ef; cbn [throw_none option_map obind] in *; [|discriminate].
    cbn [rnf f_expr]. destruct (dep_rn _ (HDe _ _ Ef)) as [-> HDf].
    destruct (fold_out (fun d => order k E d) (dependent_funcs (f_expr fd)) (f :: seen, out)) as [[s2 o2]|] eqn:EF; cbn [obind] in HX; [|discriminate]. injection HX as <- <-.
    assert (HF : fold_out (fun d => order m E' d) (map r (dependent_funcs (f_expr fd))) (map r (f :: seen), map r out) = Done (map r s2, map r o2) /\ Forall D o2).
    { clear - IH Hm HDf EF HO. revert EF HO. generalize (f :: seen). revert out. induction (dependent_funcs (f_expr fd)) as [|d ds IHd]; intros out sn EF HO; cbn [fold_out map] in EF |- *.
      - injection EF as <- <-. auto.
      - inversion HDf as [|? ? Dd HDs]; subst. destruct (order k E d (sn, out)) as [[s3 o3]|] eqn:E3; cbn [obind] in EF; [|discriminate].
        destruct (IH m d sn out s3 o3 ltac:(lia) Dd E3 HO) as [Y HO3]. rewrite Y. cbn [obind]. auto. }
    destruct HF as [HF HO2]. cbn [map] in HF. rewrite HF. cbn [obind]. rewrite map_app. split; auto. apply Forall_app. auto.
Qed.

(* ---- convert, with an explicit fuel *)
Definition convert_n (n : nat) (g : graph) (a : nat) : outcome (fenv * list nat) :=
  E <~ arr_to_func n g a (fun _ => None) ;;
  fd <~ throw_none InternalErr (E a) ;;
  rc <~ count_refs n E (f_expr fd) (fun _ => 0%nat) ;;
  '(e, E1) <~ try_fuse n rc (f_expr fd) E ;;
  let E2 := fset E1 a (set_expr fd e) in
  '(_, fs) <~ order n E2 a ([], []) ;;
  Done (E2, fs).
Lemma convert_is g a : convert g a = convert_n (S (length g)) g a.
Proof. reflexivity. Qed.
Lemma convert_n_rn k m a E fs : (k <= m)%nat -> D a -> convert_n k g1 a = Done (E, fs) ->
  exists E', convert_n m g2 (r a) = Done (E', map r fs) /\ Erel E E' /\ EDe E /\ Forall D fs.
Proof using Hinj HD.
  intros Hm Ha HX. unfold convert_n in *.
  destruct (arr_to_func k g1 a _) as [E0|] eqn:X0; cbn [obind] in HX; [|discriminate].
  destruct (arr_to_func_rn k m a (fun _ => None) (fun _ => None) E0 Hm Ha ltac:(intros n Hn; reflexivity) ltac:(intros n fd Hn; discriminate) X0) as (E0' & -> & R0 & D0). cbn [obind].
  rewrite (R0 a Ha). destruct (E0 a) as [fd|] eqn:Ea; cbn [throw_none option_map obind] in *; [|discriminate].
  destruct (count_refs k E0 _ _) as [rc|] eqn:X1; cbn [obind] in HX; [|discriminate].
  destruct (count_refs_rn E0 E0' R0 D0 k m _ (fun _ => 0%nat) (fun _ => 0%nat) rc Hm (D0 _ _ Ea) ltac:(intros n; reflexivity) X1) as (rc' & Y1 & HR). cbn [rnf f_expr]. rewrite Y1. cbn [obind].
  destruct (try_fuse k rc _ E0) as [[e E1]|] eqn:X2; cbn [obind] in HX; [|discriminate].
  destruct (try_fuse_rn rc rc' HR k m _ E0 E0' e E1 Hm (D0 _ _ Ea) R0 D0 X2) as (E1' & -> & R1 & D1 & De1). cbn [obind].
  pose proof (Erel_fset E1 E1' a (set_expr fd e) R1) as R2. pose proof (EDe_fset E1 a (set_expr fd e) D1 De1) as D2.
  destruct (order k _ a ([], [])) as [[sn fs']|] eqn:X3; cbn [obind] in HX; [|discriminate]. injection HX as <- <-.
  destruct (order_rn _ _ R2 D2 k m a [] [] sn fs' Hm Ha X3 ltac:(constructor)) as [Y3 HF]. cbn [map] in Y3.
  change (mkF (map rnl (f_loops fd)) (f_shape fd) (f_dtype fd) (rne (f_expr fd)) (r (f_out fd))) with (rnf fd) in *.
  change (set_expr (rnf fd) (rne e)) with (rnf (set_expr fd e)). rewrite Y3. cbn [obind]. eauto.
Qed.
End Rename.

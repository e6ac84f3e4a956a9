(* Kernels of a schedule whose axes are split at most once, with loops in any order: what one
   iteration does. *)
From Verif Require Import Base BaseFacts Util UtilFacts Lang Spec Graph Denote DenoteFacts Reach Algo AlgoSem AlgoConv AlgoFuse2
  Kernel Sched Codegen KernFacts RenderFacts KernelOk RunFacts SchedFacts SchedGpu Nest.

Definition lo (k : nat) (d f : Z) : loopvar := mkLV (NLoop false k [true]) (ceildiv d f).
Definition li (k : nat) (f : Z) : loopvar := mkLV (NLoop false k [false]) f.
Definition spl (k : nat) (d f : Z) : splitloop := mkSp (lvar k d) (lo k d f) (li k f) f (negb (d mod f =? 0)).

(* loops over every axis of the shape, axis k split by fac k when that is Some *)
Record nestok (shape : list Z) (fac : nat -> option Z) (loops : list loopsched) (spls : list splitloop) : Prop := {
  nk_nodup : NoDup (map lnm loops);
  nk_pos : forall k f, fac k = Some f -> 0 < f;
  nk_in : forall l, In l loops -> exists k d, nth_error shape k = Some d /\
            match fac k with None => ls_lv l = lvar k d | Some f => ls_lv l = lo k d f \/ ls_lv l = li k f end;
  nk_loop : forall k d, nth_error shape k = Some d ->
            match fac k with None => In (lvar k d) (map ls_lv loops) | Some f => In (lo k d f) (map ls_lv loops) /\ In (li k f) (map ls_lv loops) end;
  nk_sp_in : forall x, In x spls -> exists k d f, nth_error shape k = Some d /\ fac k = Some f /\ x = spl k d f;
  nk_sp : forall k d f, nth_error shape k = Some d -> fac k = Some f -> In (spl k d f) spls;
  nk_sp_nodup : NoDup (map (fun x => lv_name (sp_orig x)) spls)
}.

(* value of a variable in a tuple *)
Fixpoint tget (ns : list name) (zs : list Z) (n : name) : Z :=
  match ns, zs with m :: ns', z :: zs' => if name_eqb m n then z else tget ns' zs' n | _, _ => 0 end.
Definition coord (fac : nat -> option Z) (ns : list name) (zs : list Z) (k : nat) : Z :=
  match fac k with
  | None => tget ns zs (NLoop false k [])
  | Some f => tget ns zs (NLoop false k [true]) * f + tget ns zs (NLoop false k [false])
  end.
Definition coords (shape : list Z) fac ns zs : list Z := mapi_from 0 (fun k _ => coord fac ns zs k) shape.

Definition lrange (loops : list loopsched) (zs : list Z) : Prop := Forall2 (fun l z => 0 <= z < lv_ext (ls_lv l)) loops zs.

Lemma nth_mapi {A B} (h : nat -> A -> B) l k i : nth_error (mapi_from i h l) k = option_map (h (i + k)%nat) (nth_error l k).
Proof. revert k i; induction l as [|x l IH]; intros [|k] i; cbn; auto; [now rewrite Nat.add_0_r|]. rewrite IH. now replace (S i + k)%nat with (i + S k)%nat by lia. Qed.
Lemma tget_in loops zs lv : NoDup (map lnm loops) -> lrange loops zs -> In lv (map ls_lv loops) ->
  0 <= tget (map lnm loops) zs (lv_name lv) < lv_ext lv.
Proof.
  intros HND H. unfold lrange in H. induction H as [|l z loops zs Hz _ IH]; [intros []|]. cbn in *. inversion HND; subst.
  intros [<-|Hin].
  - unfold lnm. rewrite name_eqb_refl. lia.
  - destruct (name_eqb (lnm l) (lv_name lv)) eqn:E; [|auto]. exfalso. apply name_eqb_eq in E.
    match goal with X : ~ In _ _ |- _ => apply X end. apply in_map_iff in Hin as (l' & <- & Hl'). rewrite E.
    change (lv_name (ls_lv l')) with (lnm l'). now apply in_map.
Qed.
Lemma ceildiv_bounds d f : 0 < f -> (ceildiv d f - 1) * f < d <= ceildiv d f * f.
Proof.
  intros Hf. unfold ceildiv. pose proof (Z.div_mod (- d) f ltac:(lia)). pose proof (Z.mod_pos_bound (- d) f Hf). nia.
Qed.

Section Coords.
Context (shape : list Z) (fac : nat -> option Z) (loops : list loopsched) (spls : list splitloop) (HN : nestok shape fac loops spls).
Notation nms := (map lnm loops).
Lemma coord_bounds zs k d : lrange loops zs -> nth_error shape k = Some d ->
  0 <= coord fac nms zs k /\ match fac k with
    | None => coord fac nms zs k < d
    | Some f => tget nms zs (NLoop false k [true]) * f < d /\ 0 <= tget nms zs (NLoop false k [true]) /\ 0 <= tget nms zs (NLoop false k [false]) < f /\
                (d mod f = 0 -> coord fac nms zs k < d) end.
Proof using HN.
  intros Hz Hd. pose proof (nk_loop _ _ _ _ HN k d Hd) as Hl. unfold coord.
  pose proof (nk_nodup _ _ _ _ HN) as HND. pose proof (nk_pos _ _ _ _ HN k) as Hp.
  destruct (fac k) as [f|].
  - destruct Hl as [H1 H2]. specialize (Hp f eq_refl).
    apply (tget_in _ _ _ HND Hz) in H1. apply (tget_in _ _ _ HND Hz) in H2. cbn [lo li lv_name lv_ext] in *.
    pose proof (ceildiv_bounds d f Hp). split; [nia|]. split; [nia|]. split; [lia|]. split; [lia|].
    intros Hm. assert (Hc : ceildiv d f * f = d).
    { unfold ceildiv. pose proof (Z.div_mod (- d) f ltac:(lia)). rewrite Z.mod_opp_l_z in H0 by lia. lia. }
    nia.
  - apply (tget_in _ _ _ HND Hz) in Hl. cbn in Hl. lia.
Qed.
Lemma coords_nth zs k : nth_error (coords shape fac nms zs) k = option_map (fun _ => coord fac nms zs k) (nth_error shape k).
Proof. unfold coords. now rewrite nth_mapi. Qed.
Lemma in_range_nth s idx : in_range s idx <-> length s = length idx /\ forall k d i, nth_error s k = Some d -> nth_error idx k = Some i -> 0 <= i < d.
Proof.
  unfold in_range. split.
  - intros H. split; [apply Forall2_len in H; auto|]. induction H as [|i d s idx H1 _ IH]; intros k x y Hx Hy; [destruct k; discriminate|].
    destruct k; cbn in *; [|eauto]. congruence.
  - revert idx. induction s as [|d s IH]; intros [|i idx] [Hl H]; try discriminate; constructor.
    + now apply (H 0%nat d i).
    + apply IH. split; [cbn in Hl; lia|]. intros k x y Hx Hy. now apply (H (S k) x y).
Qed.
Lemma coords_in_range zs : lrange loops zs -> in_range shape (coords shape fac nms zs) <->
  (forall k d f, nth_error shape k = Some d -> fac k = Some f -> coord fac nms zs k < d).
Proof using HN.
  intros Hz. rewrite in_range_nth. unfold coords at 1. rewrite mapi_length. split.
  - intros [_ H] k d f Hd _. apply (H k d); auto. now rewrite coords_nth, Hd.
  - intros H. split; auto. intros k d i Hd Hi. rewrite coords_nth, Hd in Hi. cbn in Hi. injection Hi as <-.
    pose proof (coord_bounds zs k d Hz Hd) as Hc. destruct (fac k) as [f|] eqn:Ef; [|lia]. specialize (H k d f Hd Ef). lia.
Qed.

(* the tuple that reaches an index *)
Definition slice (idx : list Z) (l : loopsched) : Z :=
  match lnm l with
  | NLoop _ k [] => nth k idx 0
  | NLoop _ k (true :: _) => match fac k with Some f => nth k idx 0 / f | None => 0 end
  | NLoop _ k (false :: _) => match fac k with Some f => nth k idx 0 mod f | None => 0 end
  | _ => 0
  end.
Definition slices (idx : list Z) : list Z := map (slice idx) loops.
Lemma tget_map (h : loopsched -> Z) ls lv : NoDup (map lnm ls) -> In lv (map ls_lv ls) ->
  exists l, In l ls /\ ls_lv l = lv /\ tget (map lnm ls) (map h ls) (lv_name lv) = h l.
Proof.
  induction ls as [|l ls IH]; intros HND Hin; [destruct Hin|]. cbn in HND. inversion HND as [|? ? Hn HND']; subst. cbn in Hin. cbn [map tget].
  destruct (name_eqb (lnm l) (lv_name lv)) eqn:E.
  - destruct Hin as [<-|Hin]; [exists l; repeat split; auto; now left|]. exfalso. apply name_eqb_eq in E. apply Hn.
    apply in_map_iff in Hin as (l' & <- & Hl'). rewrite E. change (lv_name (ls_lv l')) with (lnm l'). now apply in_map.
  - destruct Hin as [<-|Hin]; [unfold lnm in E; rewrite name_eqb_refl in E; discriminate|].
    destruct (IH HND' Hin) as (l' & H1 & H2 & H3). exists l'. repeat split; auto. now right.
Qed.
Lemma slices_range idx : in_range shape idx -> lrange loops (slices idx).
Proof using HN.
  intros Hi. apply in_range_nth in Hi as [Hl Hi]. unfold lrange, slices.
  assert (G : forall l, In l loops -> 0 <= slice idx l < lv_ext (ls_lv l)).
  { intros l Hin. destruct (nk_in _ _ _ _ HN l Hin) as (k & d & Hd & Hlv).
    destruct (nth_error idx k) as [i|] eqn:Ei; [|apply nth_error_None in Ei; assert (k < length shape)%nat by (apply nth_error_Some; congruence); lia].
    specialize (Hi k d i Hd Ei). assert (Hn : nth k idx 0 = i) by now apply nth_error_nth.
    pose proof (nk_pos _ _ _ _ HN k) as Hp. unfold slice, lnm. destruct (fac k) as [f|] eqn:Ef.
    - specialize (Hp f eq_refl). destruct Hlv as [-> | ->]; cbn; rewrite Ef, Hn.
      + pose proof (ceildiv_bounds d f Hp). split; [apply Z.div_pos; lia|]. pose proof (Z.div_mod i f ltac:(lia)). pose proof (Z.mod_pos_bound i f Hp). nia.
      + apply Z.mod_pos_bound. lia.
    - rewrite Hlv. cbn. now rewrite Hn. }
  clear - G. induction loops as [|l ls IH]; constructor; [apply G; now left|]. apply IH. intros; apply G. now right.
Qed.
Lemma coords_slices idx : in_range shape idx -> coords shape fac nms (slices idx) = idx.
Proof using HN.
  intros Hi. pose proof Hi as Hi0. apply in_range_nth in Hi as [Hl Hi]. apply nth_error_ext'. intros k. rewrite coords_nth.
  destruct (nth_error shape k) as [d|] eqn:Hd; cbn [option_map].
  2:{ symmetry. apply nth_error_None. apply nth_error_None in Hd. lia. }
  destruct (nth_error idx k) as [i|] eqn:Ei; [|apply nth_error_None in Ei; assert (k < length shape)%nat by (apply nth_error_Some; congruence); lia].
  assert (Hn : nth k idx 0 = i) by now apply nth_error_nth. f_equal.
  pose proof (nk_loop _ _ _ _ HN k d Hd) as Hlp. pose proof (nk_nodup _ _ _ _ HN) as HND. pose proof (nk_pos _ _ _ _ HN k) as Hp.
  unfold coord, slices. destruct (fac k) as [f|] eqn:Ef.
  - destruct Hlp as [H1 H2].
    destruct (tget_map (slice idx) loops _ HND H1) as (l1 & _ & E1 & T1). destruct (tget_map (slice idx) loops _ HND H2) as (l2 & _ & E2 & T2).
    cbn [lo li lv_name] in T1, T2. rewrite T1, T2. unfold slice, lnm. rewrite E1, E2. cbn. rewrite Ef, Hn.
    specialize (Hp f eq_refl). pose proof (Z.div_mod i f ltac:(lia)). lia.
  - destruct (tget_map (slice idx) loops _ HND Hlp) as (l1 & _ & E1 & T1). cbn [lvar lv_name] in T1. rewrite T1. unfold slice, lnm. rewrite E1. cbn. exact Hn.
Qed.
Lemma tget_self ls zs : NoDup (map lnm ls) -> length ls = length zs -> map (fun l => tget (map lnm ls) zs (lnm l)) ls = zs.
Proof.
  revert zs. induction ls as [|l ls IH]; intros [|z zs] HND Hlen; try discriminate; auto. cbn in HND. inversion HND as [|? ? Hn HND']; subst.
  cbn [map tget]. rewrite name_eqb_refl. f_equal. etransitivity; [|apply (IH zs HND'); cbn in Hlen; lia]. apply map_ext_in. intros l' Hl'.
  destruct (name_eqb (lnm l) (lnm l')) eqn:E; auto. apply name_eqb_eq in E. exfalso. apply Hn. rewrite E. now apply in_map.
Qed.
Lemma slices_coords zs : lrange loops zs -> slices (coords shape fac nms zs) = zs.
Proof using HN.
  intros Hz. etransitivity; [|exact (tget_self loops zs (nk_nodup _ _ _ _ HN) (Forall2_len _ _ _ Hz))].
  unfold slices. apply map_ext_in. intros l Hl. destruct (nk_in _ _ _ _ HN l Hl) as (k & d & Hd & Hlv).
  assert (Hn : nth k (coords shape fac nms zs) 0 = coord fac nms zs k).
  { apply nth_error_nth. now rewrite coords_nth, Hd. }
  pose proof (coord_bounds zs k d Hz Hd) as Hc. unfold slice. unfold coord in *. destruct (fac k) as [f|] eqn:Ef.
  - destruct Hc as (_ & H1 & H2 & H3 & _).
    destruct Hlv as [Hlv|Hlv]; unfold lnm at 1; rewrite Hlv; cbn [lo li lv_name]; rewrite Ef, Hn.
    + rewrite Z.div_add_l by lia. rewrite Z.div_small by lia. unfold lnm. rewrite Hlv. cbn. lia.
    + rewrite Z.add_comm, Z.mod_add by lia. rewrite Z.mod_small by lia. unfold lnm. now rewrite Hlv.
  - unfold lnm at 1. rewrite Hlv. cbn [lvar lv_name]. rewrite Hn. unfold lnm. now rewrite Hlv.
Qed.
Lemma coords_inj zs zs' : lrange loops zs -> lrange loops zs' -> coords shape fac nms zs = coords shape fac nms zs' -> zs = zs'.
Proof using HN. intros H1 H2 H. rewrite <- (slices_coords zs H1), <- (slices_coords zs' H2). now rewrite H. Qed.
End Coords.

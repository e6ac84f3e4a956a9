(* Properties C28-C32: backward(). *)
From Coq Require Import Reals Lra.
From Coquelicot Require Import Coquelicot.
From Verif Require Import Base BaseFacts Util UtilFacts Lang Spec SpecFacts Graph Api Denote DenoteFacts ArrayLit Reach ApiFacts Prog LangInst
  FrontFacts2 FrontFacts3 Backward BackSpec BackOrder BackSteps BackRun BackTop RealAlg GradSpec BackReal BackGrad BackTimes.
Local Open Scope R_scope.

(* C28: PARTIAL: for every expression whose operations are [regular] (BackSpec.v: no broadcast_to an array's
   own shape, no empty slice with a step; both refuted below or not covered), over exact real arithmetic.
   x is any array y is computed from (not only constants); F t is y recomputed with x[i] moved by t. *)
Theorem C28_gradient_partial : forall g y x, reach g -> valid g y -> regular g y -> depends g y x -> smooth g y x ->
  exists g' gs' r, backward g no_grads y = Done (g', gs') /\ gs' x = Some r /\ shape_of g' r = shape_of g x /\
    forall i, in_range (shape_of g x) i ->
      let F t := den_with x (moved g x (unit_at i) t) g y in
      locally 0 (fun t => forall j, in_range (shape_of g y) j -> exists v, t_at (F t) j = Ok v) /\
      exists d, t_at (den RA g' r) i = Ok d /\ is_derive (fun t => total (shape_of g y) (F t)) 0 d.
Proof.
  intros g y x Hr Hv HR Hyx Hsm.
  destruct (gradient_main g no_grads y x (fun _ => 1) Hr Hv ltac:(intros n r E; discriminate E) HR Hyx Hsm) as (g1 & gs1 & tr & r & ET & EX & ES & EV).
  { reflexivity. }
  { intros s i E. discriminate E. }
  { reflexivity. }
  { intros r i E. discriminate E. }
  exists g1, gs1, r. unfold backward. rewrite ET. split; [reflexivity|]. split; [assumption|]. split; [assumption|].
  intros i Hi. destruct (EV i Hi) as (d & Hd & HL & Hval). split; [exact HL|]. exists d. split.
  - rewrite Hval. cbn. f_equal. ring.
  - eapply is_derive_ext; [|exact Hd]. intros t. unfold weighted, total. apply rsum_ext. intros j _. ring.
Qed.
Print Assumptions C28_gradient_partial.

(* With gradients already present: y's own gradient w (1 if absent) is the weight of the outputs, and the
   result is added to x.grad, provided no other operation result holds a gradient. *)
Theorem C28_weighted_gradient_partial : forall g gs y x w, reach g -> valid g y -> grads_ok g gs -> regular g y -> depends g y x -> smooth g y x ->
  (forall n, depends g y n -> is_op g n -> n <> y -> gs n = None) ->
  (forall s i, gs y = Some s -> in_range (shape_of g y) i -> t_at (den RA g s) i = Ok (w i)) ->
  (forall i, gs y = None -> in_range (shape_of g y) i -> w i = 1) ->
  (forall r i, gs x = Some r -> in_range (shape_of g x) i -> exists v, t_at (den RA g r) i = Ok v) ->
  exists g' gs' tr r, backward_trace g gs y = Done (g', gs', tr) /\ gs' x = Some r /\ shape_of g' r = shape_of g x /\
    forall i, in_range (shape_of g x) i ->
      let F t := den_with x (moved g x (unit_at i) t) g y in
      exists d, is_derive (fun t => weighted (shape_of g y) w (F t)) 0 d /\
        locally 0 (fun t => forall j, in_range (shape_of g y) j -> exists v, t_at (F t) j = Ok v) /\
        t_at (den RA g' r) i = Ok (match gs x with Some r0 => if Nat.eqb x y then 0 else rv (t_at (den RA g r0) i) | None => 0 end + d).
Proof. exact gradient_main. Qed.
Print Assumptions C28_weighted_gradient_partial.

(* x = array([2,3]); y = sum(x * x + sin(x)) *)
Definition exG : graph := prog [CArray (Nest [Leaf (NInt 2); Leaf (NInt 3)]); CBinary BMul 0 0; CUnary USin 0; CBinary BAdd 1 2; CSum 3 None false].
Example C28_nonvacuous : reach exG /\ valid exG 4 /\ regular exG 4 /\ depends exG 4 0 /\ smooth exG 4 0 /\ length exG = 5%nat.
Proof.
  assert (HN : forall n, depends exG 4 n -> (n <= 4)%nat).
  { intros n H. apply (depends_le exG (reach_inputs_lt _ (prog_reach _)) _ _ H). }
  split; [apply prog_reach|]. split; [vm_compute; lia|]. split.
  { intros n nd a Hd Hn Ha. apply HN in Hd. do 5 (destruct n as [|n]; [vm_compute in Hn; injection Hn as <-; vm_compute in Ha; try discriminate; vm_compute; auto|]). lia. }
  split.
  { eapply dep_step; [vm_compute; reflexivity|left; reflexivity|]. eapply dep_step; [vm_compute; reflexivity|left; reflexivity|].
    eapply dep_step; [vm_compute; reflexivity|left; reflexivity|]. constructor. }
  split; [|reflexivity].
  constructor.
  - intros n idx Hd Hi. apply HN in Hd. apply in_all_idx in Hi.
    do 5 (destruct n as [|n]; [vm_compute in Hi; repeat (destruct Hi as [<-|Hi]; [eexists; lazy -[IZR sin Rplus Rmult]; reflexivity|]); destruct Hi|]). lia.
  - intros n nd a idx v Hd Hn Ho. apply HN in Hd. exfalso. do 5 (destruct n as [|n]; [vm_compute in Hn; injection Hn as <-; discriminate Ho|]). lia.
  - intros n nd a b idx u w Hd Hn Ho. apply HN in Hd. exfalso. do 5 (destruct n as [|n]; [vm_compute in Hn; injection Hn as <-; discriminate Ho|]). lia.
Qed.

(* FINDING: broadcast_to an array's own shape: the rule sums the gradient over ALL axes.
   x = array([1,2,3]); x.broadcast_to((3,)).backward() leaves x.grad == [3] instead of [1,1,1]. *)
Definition exB : graph := prog [CArray (Nest [Leaf (NInt 1); Leaf (NInt 2); Leaf (NInt 3)]); CBroadcastTo 0 [3%Z]].
Theorem C28_broadcast_own_shape_refuted : reach exB /\
  exists g' gs' r, backward exB no_grads 1 = Done (g', gs') /\ gs' 0%nat = Some r /\
    shape_of exB 0 = [3%Z] /\ shape_of g' r = [1%Z] /\ map (t_at (den (py_alg no_libm) g' r)) (all_idx [1%Z]) = [Ok (PI 3)].
Proof. split; [apply prog_reach|]. eexists _, _, _. split; [vm_compute; reflexivity|]. repeat (split; [vm_compute; reflexivity|]). vm_compute. reflexivity. Qed.
Print Assumptions C28_broadcast_own_shape_refuted.

(* C29: the rules run on exactly the operation results y is computed from, each once, every consumer of a result
   before that result, and the gradient a rule is given is the final one. *)
Definition unit_alg : valg := mkValg unit (fun _ => tt) (fun _ _ => Some tt) (fun _ _ _ => Some tt) (fun _ v => v).
Lemma unit_co : forall dt v, coerce unit_alg dt v = v.
Proof. reflexivity. Qed.
Theorem C29_each_operation_once : forall g gs y g' gs' tr, reach g -> valid g y -> backward_trace g gs y = Done (g', gs', tr) ->
  NoDup (map fst tr) /\
  (forall n, In n (map fst tr) <-> depends g y n /\ is_op g n) /\
  (forall l1 n l2 c, map fst tr = l1 ++ n :: l2 -> depends g y c -> operand g c n -> In c l1) /\
  (forall n gr, In (n, gr) tr -> gs' n = Some gr).
Proof. exact backward_trace_spec. Qed.
Print Assumptions C29_each_operation_once.
(* and it does return, for regular operations *)
Theorem C29_returns : forall g gs y, reach g -> valid g y -> grads_ok g gs -> regular g y ->
  exists g' gs' tr, backward_trace g gs y = Done (g', gs', tr).
Proof.
  intros g gs y Hr Hv Hg HR. destruct (backward_total unit_alg unit_co g gs y Hr Hv Hg HR) as (g' & gs' & tr & E & _). eauto.
Qed.
Print Assumptions C29_returns.
Example C29_nonvacuous : order exG 4 = [4; 3; 2; 1]%nat.
Proof. vm_compute. reflexivity. Qed.

(* C30: PARTIAL (regular operations) *)
Theorem C30_gradient_shapes_partial : forall g gs y, reach g -> valid g y -> grads_ok g gs -> regular g y ->
  exists g' gs', backward g gs y = Done (g', gs') /\
    (forall n, depends g y n -> exists r, gs' n = Some r /\ shape_of g' r = shape_of g n) /\
    (forall n, gs' n <> None -> gs n <> None \/ depends g y n).
Proof.
  intros g gs y Hr Hv Hg HR. destruct (backward_total unit_alg unit_co g gs y Hr Hv Hg HR) as (g' & gs' & tr & E & _ & He & Ho & Hs & Hf & _).
  exists g', gs'. unfold backward. rewrite E. split; [reflexivity|]. split; [|exact Hf].
  intros n Hd. specialize (Hs n Hd). destruct (gs' n) as [r|] eqn:En; [|congruence]. exists r. split; [reflexivity|].
  destruct (Ho n r En) as (_ & _ & ->). apply (ext_shape _ _ _ He). exact (depends_valid _ _ _ Hr Hv Hd).
Qed.
Print Assumptions C30_gradient_shapes_partial.
Theorem C30_broadcast_own_shape_refuted :
  exists g' gs' r, backward exB no_grads 1 = Done (g', gs') /\ gs' 0%nat = Some r /\ shape_of g' r <> shape_of exB 0.
Proof. eexists _, _, _. split; [vm_compute; reflexivity|]. split; [vm_compute; reflexivity|]. vm_compute. discriminate. Qed.
Print Assumptions C30_broadcast_own_shape_refuted.

(* C31 is false: the gradients of operation results are not reset.  y = -(-x), backward() twice: 3, not 2. *)
Definition exT : graph := prog [CArray (Nest [Leaf (NInt 5)]); CUnary UNeg 0; CUnary UNeg 1].
Theorem C31_twice_refuted : reach exT /\
  exists g1 gs1 r1 g2 gs2 r2, backward exT no_grads 2 = Done (g1, gs1) /\ gs1 0%nat = Some r1 /\
    backward g1 gs1 2 = Done (g2, gs2) /\ gs2 0%nat = Some r2 /\
    t_at (den (py_alg no_libm) g1 r1) [0%Z] = Ok (PI 1) /\ t_at (den (py_alg no_libm) g2 r2) [0%Z] = Ok (PI 3).
Proof.
  split; [apply prog_reach|]. eexists _, _, _, _, _, _. split; [vm_compute; reflexivity|]. split; [vm_compute; reflexivity|].
  split; [vm_compute; reflexivity|]. split; [vm_compute; reflexivity|]. split; vm_compute; reflexivity.
Qed.
Print Assumptions C31_twice_refuted.
(* What does hold (PARTIAL): if the user drops the gradients of operation results after each call, k calls add k times
   the derivative to the gradient of every constant. *)
Theorem C31_accumulates_partial : forall g gs y x D k, reach g -> valid g y -> grads_ok g gs -> regular g y -> depends g y x -> smooth g y x ->
  is_op g y -> ~ is_op g x -> (forall n, is_op g n -> gs n = None) ->
  (forall i, in_range (shape_of g x) i -> is_derive (fun t => total (shape_of g y) (den_with x (moved g x (unit_at i) t) g y)) 0 (D i)) ->
  forall V, (forall i, in_range (shape_of g x) i -> grad_is g gs x i (V i)) ->
  exists g' gs', backward_rounds k g gs y = Done (g', gs') /\
    forall i, in_range (shape_of g x) i -> grad_is g' gs' x i (V i + INR k * D i).
Proof. exact rounds. Qed.
Print Assumptions C31_accumulates_partial.
Example C31_nonvacuous : is_op exG 4 /\ ~ is_op exG 0 /\ grad_is exG no_grads 0 [0%Z] 0.
Proof.
  split; [eexists; split; [vm_compute; reflexivity|discriminate]|]. split; [|reflexivity].
  intros (nd & E & H). vm_compute in E. injection E as <-. apply H. reflexivity.
Qed.

(* C32: every array that existed keeps its description, shape and contents, for every element arithmetic and
   every program; new arrays are appended. *)
Theorem C32_forward_values_kept : forall (A : valg) g gs y g' gs', backward g gs y = Done (g', gs') ->
  forall n, valid g n -> nth_error g' n = nth_error g n /\ shape_of g' n = shape_of g n /\ den A g' n = den A g n.
Proof.
  intros A g gs y g' gs' H n Vn. unfold backward in H. destruct (backward_trace g gs y) as [((g1 & gs1) & tr)|] eqn:E; [|discriminate].
  cbn in H. injection H as <- <-. apply backward_trace_appends in E. split; [|split; [now apply ext_shape|now apply ext_den]].
  destruct (valid_node _ _ Vn) as [nd Hn]. rewrite Hn. now apply (ext_node _ _ _ _ E).
Qed.
Print Assumptions C32_forward_values_kept.

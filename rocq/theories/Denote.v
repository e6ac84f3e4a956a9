(* The meaning of an array = the specification's tensor operations applied along the graph,
   and well-formedness of graphs (what the API's validation guarantees, plus argument ranges). *)
From Verif Require Import Base Util Lang Spec Graph Api.

Section Den.
Context (A : valg).

Definition op1 (dt : dtype) (u : uop) (x : val A) : res (val A) :=
  v <- of_opt (un A u x) ;; Ok (coerce A dt v).
Definition op2 (dt : dtype) (b : bop) (x y : val A) : res (val A) :=
  v <- of_opt (bin A b x y) ;; Ok (coerce A dt v).
Definition zero_of (dt : dtype) : val A := coerce A dt (lit A 0).

Definition tin (ts : list (tensor (val A))) (nd : node) (k : nat) : tensor (val A) :=
  match nth_error (n_in nd) k with Some a => nth a ts dummy_tensor | None => dummy_tensor end.

Definition den_node (ts : list (tensor (val A))) (nd : node) : tensor (val A) :=
  let x := tin ts nd 0 in
  let y := tin ts nd 1 in
  let dt := n_dtype nd in
  match n_op nd with
  | OConst vals => t_data (n_shape nd) (map (fun v => coerce A dt (of_num A v)) vals)
  | OUn u => t_map (op1 dt u) x
  | OBin b => t_map2 (op2 dt b) x y
  | OSum axis kd => t_sum (op2 dt BAdd) (zero_of dt) axis kd x
  | OReshape s => t_reshape s x
  | OBroadcast s => t_broadcast s x
  | OTranspose axes => t_transpose axes x
  | OSlice subs => t_slice subs x
  | OContiguous => x
  | OPad d b a => t_pad (zero_of dt) (Z.to_nat d) b a x
  | ODilate d st => t_dilate (zero_of dt) (Z.to_nat d) st x
  end.

Definition dens (g : graph) : list (tensor (val A)) :=
  fold_left (fun ts nd => ts ++ [den_node ts nd]) g [].
Definition den (g : graph) (n : nat) : tensor (val A) := nth n (dens g) dummy_tensor.

End Den.

Definition nonneg (s : list Z) : Prop := Forall (fun d => 0 <= d) s.

Definition sub_ok (s : nsub) (d : Z) : Prop :=
  match s with
  | NSInt i => 0 <= i < d
  | NSSlice a b st => 0 <= a <= d /\ 0 <= b <= d /\ 0 < st
  end.

(* src can be stretched to target (NumPy rule) *)
Definition bcast_ok (src target : list Z) : Prop :=
  (length src <= length target)%nat /\
  Forall2 (fun d e => d = e \/ d = 1) src (skipn (length target - length src) target).

Definition arg_ok (g : graph) (i : nat) (op : nop) (ins : list nat) (x : node) : Prop :=
  let s := n_shape x in
  match op with
  | OConst _ => False
  | OUn _ | OContiguous => length ins = 1%nat
  | OBin _ => exists b y, nth_error ins 1 = Some b /\ length ins = 2%nat /\ (b < i)%nat /\
                nth_error g b = Some y /\ n_shape y = s
  | OSum axis _ => length ins = 1%nat /\ Forall (fun a => 0 <= a < Z.of_nat (length s)) axis
  | OReshape t => length ins = 1%nat /\ nonneg t /\ zprod t = zprod s /\ is_contiguous x = true
  | OBroadcast t => length ins = 1%nat /\ nonneg t /\ bcast_ok s t
  | OTranspose axes => length ins = 1%nat /\ Permutation axes (zrange (Z.of_nat (length s)))
  | OSlice subs => length ins = 1%nat /\ Forall2 sub_ok subs s
  | OPad d b a => length ins = 1%nat /\ 0 <= d < Z.of_nat (length s) /\ 0 <= b /\ 0 <= a
  | ODilate d st => length ins = 1%nat /\ 0 <= d < Z.of_nat (length s) /\ 1 <= st /\
                    1 <= nth (Z.to_nat d) s 0
  end.

Definition wf_node (g : graph) (i : nat) (nd : node) : Prop :=
  match n_op nd with
  | OConst vals => n_in nd = [] /\ nonneg (n_shape nd) /\ Z.of_nat (length vals) = zprod (n_shape nd) /\
                   n_strides nd = strides_from_shape (n_shape nd) /\ n_offset nd = 0 /\
                   n_len nd = zprod (n_shape nd)
  | op => exists a x, nth_error (n_in nd) 0 = Some a /\ (a < i)%nat /\ nth_error g a = Some x /\
            forward_node op (n_in nd) x = Done nd /\ arg_ok g i op (n_in nd) x
  end.

Definition wf_graph (g : graph) : Prop := forall i nd, nth_error g i = Some nd -> wf_node g i nd.

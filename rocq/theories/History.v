(* Histories: everything a program can do with a CPU backend, in any order. *)
From Verif Require Import Base Util Lang Spec Graph Api Denote Reach Tolist Algo AlgoSem Kernel Sched Codegen Backends CacheKey Runtime RuntimeFacts RuntimeFacts2.

(* [hist B C s]: s is reachable by API calls (valid arguments, raising or not), materialize() calls
   (successful or raising) and cache resets, where all kernels the materialize() calls need belong to
   the collection C.  The side condition mat_ok is vacuous in Python. *)
Inductive hist (B : cpu_backend) (C : desc -> Prop) : rt B -> Prop :=
| h_init : hist B C (rt0 B)
| h_call s c : hist B C s -> call_ok (r_graph B s) c -> hist B C (fst (api_call B s c))
| h_mat s a : hist B C s -> valid (r_graph B s) a ->
    (forall b, base (r_graph B s) a = Some b -> mat_ok (b_lang B) (r_graph B s) b) ->
    (forall d, kernel_of (r_graph B s) a d -> C d) ->
    hist B C (fst (materialize B s a))
| h_reset s : hist B C s -> hist B C (reset_cache B s).
(* what happens after s *)
Inductive later (B : cpu_backend) (C : desc -> Prop) (s : rt B) : rt B -> Prop :=
| l_here : later B C s s
| l_call t c : later B C s t -> call_ok (r_graph B t) c -> later B C s (fst (api_call B t c))
| l_mat t a : later B C s t -> valid (r_graph B t) a ->
    (forall b, base (r_graph B t) a = Some b -> mat_ok (b_lang B) (r_graph B t) b) ->
    (forall d, kernel_of (r_graph B t) a d -> C d) ->
    later B C s (fst (materialize B t a))
| l_reset t : later B C s t -> later B C s (reset_cache B t).

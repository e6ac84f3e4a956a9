(* Running a list of API calls; executable check that every call is valid (used by Examples and by
   the history model). *)
From Verif Require Import Base BaseFacts Util UtilFacts Lang Spec SpecFacts Graph Api Denote DenoteFacts
  ArrayLit ArrayFacts Reach ApiFacts.
From Coq Require Import ZifyBool ZifyNat.

(* follow first elements to guess a shape *)
Fixpoint guess {A} (v : nest A) : list Z :=
  match v with
  | Leaf _ => []
  | Nest l => Z.of_nat (length l) :: match l with w :: _ => guess w | [] => [] end
  end.
Fixpoint rectb {A} (s : list Z) (v : nest A) : bool :=
  match v, s with
  | Leaf _, [] => true
  | Nest l, d :: s' => (Z.of_nat (length l) =? d) && forallb (rectb s') l
  | _, _ => false
  end.
Lemma rectb_ok {A} (v : nest A) : forall s, rectb s v = true -> rect s v.
Proof.
  induction v as [x|l IH] using nest_ind'; intros [|d s] H; cbn in H; try discriminate; constructor.
  - lia.
  - apply andb_prop in H as [_ H]. rewrite forallb_forall in H. intros w Hw. apply IH; auto.
Qed.

Definition nonnegb (s : list Z) : bool := forallb (fun d => 0 <=? d) s.
Lemma nonnegb_ok s : nonnegb s = true -> nonneg s.
Proof. unfold nonnegb. intros H. rewrite forallb_forall in H. apply Forall_forall. intros x Hx. specialize (H x Hx). lia. Qed.
Fixpoint forall2b {X Y} (f : X -> Y -> bool) (a : list X) (b : list Y) : bool :=
  match a, b with [], [] => true | x :: a', y :: b' => f x y && forall2b f a' b' | _, _ => false end.
Lemma forall2b_ok {X Y} f (P : X -> Y -> Prop) a b : (forall x y, f x y = true -> P x y) -> forall2b f a b = true -> Forall2 P a b.
Proof. intros HP. revert b. induction a as [|x a IH]; intros [|y b] H; cbn in H; try discriminate; constructor; apply andb_prop in H as []; auto. Qed.
Definition bcastb (s t : list Z) : bool :=
  Nat.leb (length s) (length t) && forall2b (fun d e => (d =? e) || (d =? 1)) s (skipn (length t - length s) t).
Lemma bcastb_ok s t : bcastb s t = true -> bcast_ok s t.
Proof.
  unfold bcastb, bcast_ok. intros H. apply andb_prop in H as [H1 H2]. split; [now apply Nat.leb_le|].
  eapply forall2b_ok; [|exact H2]. cbn. lia.
Qed.

Definition validb (g : graph) (a : nat) : bool := Nat.ltb a (length g).
Definition call_okb (g : graph) (c : call) : bool :=
  match c with
  | CArray v => rectb (guess v) v
  | CArange _ => true
  | CFull s _ => nonnegb s
  | CFullLike t _ | COnesLike t | CZerosLike t => validb g t
  | CUnary _ a => validb g a
  | CBinary _ l r => validb g l && validb g r
  | CBinaryScalar _ l _ => validb g l
  | CSum a _ _ | CGetitem a _ | CTranspose a _ | CT a | CContiguous a => validb g a
  | CBroadcastTo a s => validb g a && nonnegb s && bcastb (shape_of g a) s
  | CReshape a s => validb g a && nonnegb s
  | CPad a d b f => validb g a && (0 <=? d) && (0 <=? b) && (0 <=? f)
  | CDilate a d st => validb g a && (0 <=? d) && (1 <=? st) && (1 <=? nth (Z.to_nat d) (shape_of g a) 0)
  end.
Lemma call_okb_ok g c : call_okb g c = true -> call_ok g c.
Proof.
  unfold call_okb, validb. destruct c; cbn [call_ok]; unfold valid; intros H;
    repeat match goal with H : _ && _ = true |- _ => apply andb_prop in H as [? ?] | H : Nat.ltb _ _ = true |- _ => apply Nat.ltb_lt in H end;
    repeat match goal with |- _ /\ _ => split end; auto; try lia; try (now apply nonnegb_ok); try (now apply bcastb_ok).
  exists (guess v). now apply rectb_ok.
Qed.

(* a program: every call must be valid and succeed *)
Fixpoint run_prog (g : graph) (cs : list call) : option graph :=
  match cs with
  | [] => Some g
  | c :: r => if call_okb g c then match run_call g c with Done (g', _) => run_prog g' r | Throw _ => None end else None
  end.
Lemma run_prog_reach cs : forall g g', reach g -> run_prog g cs = Some g' -> reach g'.
Proof.
  induction cs as [|c cs IH]; cbn; intros g g' Hr H; [congruence|].
  destruct (call_okb g c) eqn:E; [|discriminate]. destruct (run_call g c) as [[g1 r]|] eqn:E1; [|discriminate].
  eapply IH; [|exact H]. eapply reach_call; eauto using call_okb_ok.
Qed.
Definition prog (cs : list call) : graph := match run_prog [] cs with Some g => g | None => [] end.
Lemma prog_reach cs : reach (prog cs).
Proof. unfold prog. destruct (run_prog [] cs) eqn:E; [|constructor]. eapply run_prog_reach; [constructor|exact E]. Qed.

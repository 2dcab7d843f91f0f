(** Selection.v - how hyperparameter selections are resolved (C31). *)
From Verif Require Import Base Num ConfigSpaceModel UtilsModel ListLemmas IceProofs IceProofs2.

Section P.
Context {N : Num}.

Theorem selection_resolution (cs : cspace N) :
  (forall l hs, convert_hyperparameters (SelList l) cs = Ok hs <-> Forall2 (resolves cs) l hs) /\
  (forall l e, convert_hyperparameters (SelList l) cs = Err e <->
     exists pre i post, l = pre ++ i :: post /\ (exists hs, Forall2 (resolves cs) pre hs) /\
       match i with SName s => ~ In s (map hp_name cs) /\ e = KeyError | SHp _ => False | SOther => e = TypeError end) /\
  (forall l, get_hyperparameters (SelList l) cs = convert_hyperparameters (SelList l) cs) /\
  (forall i, convert_hyperparameters (SelOne i) cs = convert_hyperparameters (SelList [i]) cs /\
             get_hyperparameters (SelOne i) cs = convert_hyperparameters (SelList [i]) cs) /\
  get_hyperparameters SelNone cs = Ok cs /\ convert_hyperparameters SelNone cs = Err TypeError.
Proof.
  refine (conj (fun l => proj1 (sel_items_spec cs l)) (conj (fun l => proj2 (sel_items_spec cs l)) (conj (fun l => eq_refl) (conj _ (conj eq_refl eq_refl))))).
  intros [s|h|]; cbn; auto.
Qed.

(** a name stands for the hyperparameter of that name *)
Theorem name_resolves (cs : cspace N) s h : NoDup (map hp_name cs) ->
  (resolves cs (SName s) h <-> In h cs /\ hp_name h = s).
Proof.
  intro ND. cbn. induction cs as [|c t IH]; cbn; [split; [discriminate|tauto]|].
  inversion ND as [|? ? Hn ND']; subst. destruct (String.eqb_spec (hp_name c) s) as [E|E].
  - split; [intro H; inversion H; subst; auto|]. intros [[->|H] <-]; [reflexivity|]. exfalso. apply Hn. rewrite E. apply in_map. exact H.
  - rewrite (IH ND'). split; [tauto|]. intros [[->|H] <-]; tauto.
Qed.
End P.

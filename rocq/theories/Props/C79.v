(** C79: -chparent gives bones other parents. *)
From Coq Require Import String Ascii List ZArith Bool Lia.
From Verif.Model Require Import Num Vec Mqo MqoDoc Cli.
From Verif.Spec Require Import GltfSpec CliSpec.
From Verif.Proofs Require Import CliProofs.
Import ListNotations.
Local Open Scope string_scope.
Local Open Scope list_scope.
Local Open Scope Z_scope.

(** The words of a setting contain neither commas nor colons. *)
Definition word (s : string) : Prop := without "," s /\ without ":" s.
Definition settings (pairs : list (string * string)) : Prop := pairs <> [] /\ Forall (fun pr => word (fst pr) /\ word (snd pr)) pairs.
Definition written (pairs : list (string * string)) : string := comma_list (map (fun pr => fst pr ++ ":" ++ snd pr)%string pairs).

(** If the parents named for existing bones exist, every bone gets the parent of the last setting that names it, and keeps its own parent if there is none;
    everything else stays.  A name means the last bone that has it. *)
Theorem C79_exact_partial : forall T (pairs : list (string * string)) (bones : list (bone T)), settings pairs ->
  (forall pr i, In pr pairs -> names_bone bones (fst pr) i -> exists j, names_bone bones (snd pr) j) ->
  exists bones', ch_parent (written pairs) bones = Done bones' /\ length bones' = length bones /\
  forall i b, nth_error bones i = Some b -> exists b', nth_error bones' i = Some b' /\ same_but_parent b b' /\
    (forall c p, last_such (fun pr => names_bone bones (fst pr) i) pairs (c, p) -> exists j pb, names_bone bones p j /\ nth_error bones j = Some pb /\ bParent b' = bID pb) /\
    ((forall pr, In pr pairs -> ~ names_bone bones (fst pr) i) -> b' = b).
Proof.
  intros T pairs bones [E F] K. change (written pairs) with (comma_list (map pair_text pairs)). rewrite (ch_parent_args pairs bones E) by (eapply Forall_impl; [|exact F]; intros pr [[A _] [B _]]; split; assumption).
  apply ch_parents_done; [eapply Forall_impl; [|exact F]; intros pr [[_ A] [_ B]]; split; assumption|exact K].
Qed.
Print Assumptions C79_exact_partial.
(** Otherwise the program ends with a nil pointer. *)
Theorem C79_crash : forall T (pairs : list (string * string)) (bones : list (bone T)), settings pairs ->
  forall pr i, In pr pairs -> names_bone bones (fst pr) i -> (forall j, ~ names_bone bones (snd pr) j) -> ch_parent (written pairs) bones = Crash.
Proof.
  intros T pairs bones [E F] pr i. change (written pairs) with (comma_list (map pair_text pairs)). rewrite (ch_parent_args pairs bones E) by (eapply Forall_impl; [|exact F]; intros q [[A _] [B _]]; split; assumption).
  apply ch_parents_crash. eapply Forall_impl; [|exact F]; intros q [[_ A] [_ B]]; split; assumption.
Qed.
Print Assumptions C79_crash.

Definition bn (i : Z) (n : string) (p : Z) : bone Z := mkBone i n p (mkV3 0 0 0) [].
Definition skeleton : list (bone Z) := [bn 1 "hips" 0; bn 2 "spine" 1; bn 3 "arm" 2].
(** Refuted: an unknown parent crashes the program. *)
Theorem C79_unknown_refuted : ch_parent (written [("arm", "shoulder")]) skeleton = Crash.
Proof. reflexivity. Qed.
Print Assumptions C79_unknown_refuted.
(** Refuted: the bones need not be a forest any more. *)
Theorem C79_cycle_refuted : proper_bones skeleton /\ exists bones', ch_parent (written [("hips", "arm")]) skeleton = Done bones' /\ below bones' 0 0 /\ ~ proper_bones bones'.
Proof.
  split.
  - split; [repeat constructor; cbn; intuition lia|]. split; [apply Forall_forall; intros b [<-|[<-|[<-|[]]]]; cbn; intuition lia|]. exists Z.to_nat. apply Forall_forall; intros b [<-|[<-|[<-|[]]]]; cbn; lia.
  - eexists. split; [vm_compute; reflexivity|]. split.
    + assert (P : forall i k b pb, nth_error [bn 1 "hips" 3; bn 2 "spine" 1; bn 3 "arm" 2] k = Some b -> nth_error [bn 1 "hips" 3; bn 2 "spine" 1; bn 3 "arm" 2] i = Some pb ->
        0 < bParent b -> bID pb = bParent b -> bone_parent [bn 1 "hips" 3; bn 2 "spine" 1; bn 3 "arm" 2] i k) by (intros i k b pb A B C D; exists b, pb; repeat split; assumption).
      apply (below_step _ _ 2%nat 0%nat); [apply (below_step _ _ 1%nat 2%nat); [constructor|]|]; (eapply P; [reflexivity|reflexivity|cbn; lia|reflexivity]).
    + intros (_ & _ & rank & F). inversion F as [|? ? A F1]; subst. inversion F1 as [|? ? B F2]; subst. inversion F2 as [|? ? C _]; subst. cbn in A, B, C. specialize (A ltac:(lia)). specialize (B ltac:(lia)). specialize (C ltac:(lia)). lia.
Qed.
Print Assumptions C79_cycle_refuted.

(** Two settings for the same bone: the later one counts; settings for unknown bones are ignored. *)
Definition C79_pairs : list (string * string) := [("arm", "spine"); ("tail", "nowhere"); ("arm", "hips")].
Example C79_example : ch_parent (written C79_pairs) skeleton = Done [bn 1 "hips" 0; bn 2 "spine" 1; bn 3 "arm" 1] /\ settings C79_pairs /\
  (forall pr i, In pr C79_pairs -> names_bone skeleton (fst pr) i -> exists j, names_bone skeleton (snd pr) j).
Proof.
  split; [reflexivity|]. split.
  - split; [discriminate|]. apply Forall_forall. intros pr [<-|[<-|[<-|[]]]]; (split; split); intros E; cbn in E; intuition discriminate.
  - intros pr i Hp Hn. apply named_iff in Hn. destruct Hp as [<-|[<-|[<-|[]]]]; try discriminate Hn; [exists 1%nat|exists 0%nat]; apply named_iff; reflexivity.
Qed.

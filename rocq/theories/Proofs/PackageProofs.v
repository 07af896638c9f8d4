(** Proofs about unpacking: C90, C91. *)
From Coq Require Import String Ascii List Bool Arith NArith Lia Sorting.Sorted.
From Verif.Model Require Import Cli UnityPackage.
From Verif.Spec Require Import PackageSpec.
Import ListNotations.
Local Open Scope string_scope.
Local Open Scope list_scope.

Lemma path_eqb_spec a b : path_eqb a b = true <-> a = b.
Proof. unfold path_eqb. destruct (list_eq_dec string_dec a b); split; congruence. Qed.
Lemma path_eqb_refl a : path_eqb a a = true.
Proof. apply path_eqb_spec. reflexivity. Qed.

Lemma under_spec d p : under d p = true <-> exists q, p = d ++ q.
Proof.
  revert p. induction d as [|a d IH]; intro p; cbn [under].
  - split; [intros _; exists p; reflexivity|reflexivity].
  - destruct p as [|b q].
    + split; [discriminate|intros [q H]; discriminate].
    + rewrite andb_true_iff, String.eqb_eq, IH. split.
      * intros [-> [r ->]]. exists r. reflexivity.
      * intros [r H]. injection H as -> ->. split; [reflexivity|exists r; reflexivity].
Qed.

(** ** Cleaning. *)
Lemma clean_elements acc cs : clean acc cs = clean acc (filter (fun c => negb (silent c)) cs).
Proof.
  revert acc. induction cs as [|c cs IH]; intro acc; [reflexivity|]. cbn [clean filter]. unfold silent at 1.
  destruct (String.eqb c "" || String.eqb c ".") eqn:E; cbn [negb].
  - apply IH.
  - cbn [clean]. rewrite E. destruct (String.eqb c ".."); apply IH.
Qed.
Lemma elements_clear name c : In c (elements name) -> silent c = false.
Proof. unfold elements. rewrite filter_In. intros [_ H]. now apply negb_true_iff in H. Qed.
Lemma clean_plain cs : (forall c, In c cs -> silent c = false) -> ~ In ".." cs -> forall acc, clean acc cs = rev acc ++ cs.
Proof.
  induction cs as [|c cs IH]; intros Hs Hp acc; cbn [clean]; [now rewrite app_nil_r|].
  assert (S := Hs c (or_introl eq_refl)). unfold silent in S. rewrite S.
  destruct (String.eqb c "..") eqn:E; [apply String.eqb_eq in E; subst; destruct Hp; now left|].
  rewrite IH; [|firstorder|firstorder]. cbn [rev]. now rewrite <- app_assoc.
Qed.
Lemma join_plain dst e : plain e -> join dst (teName e) = dst ++ elements (teName e).
Proof.
  intro H. unfold join. rewrite clean_elements. fold (elements (teName e)). rewrite clean_plain; [now rewrite rev_involutive|apply elements_clear|exact H].
Qed.
Lemma clean_depth dst cs : (forall c, In c cs -> silent c = false) -> forall x, depth_from (length x) cs <> None -> exists q, clean (x ++ rev dst) cs = dst ++ q.
Proof.
  induction cs as [|c cs IH]; intros Hs x H; cbn [clean].
  - exists (rev x). now rewrite rev_app_distr, rev_involutive.
  - assert (S := Hs c (or_introl eq_refl)). unfold silent in S. rewrite S. cbn [depth_from] in H.
    destruct (String.eqb c "..").
    + destruct x as [|y x]; cbn [length] in H; [congruence|]. cbn [tl app]. apply IH; [firstorder|exact H].
    + change (c :: x ++ rev dst) with ((c :: x) ++ rev dst). apply IH; [firstorder|exact H].
Qed.
Lemma join_depth dst name : never_above name -> exists q, join dst name = dst ++ q.
Proof. intro H. unfold join. rewrite clean_elements. apply (clean_depth dst (elements name) (elements_clear name) []). exact H. Qed.

(** A name that is not an element. *)
Definition other_name (cs : list string) : string := fold_right append "x" cs.
Lemma append_length a b : String.length (a ++ b)%string = String.length a + String.length b.
Proof. induction a; cbn; [reflexivity|now rewrite IHa]. Qed.
Lemma other_long cs c : In c cs -> String.length c < String.length (other_name cs).
Proof.
  assert (P : forall l, 0 < String.length (other_name l)).
  { induction l; unfold other_name; cbn [fold_right]; [cbn; lia|]. rewrite append_length. fold (other_name l). lia. }
  induction cs as [|a cs IH]; intros []; unfold other_name; cbn [fold_right]; rewrite append_length; fold (other_name cs).
  - subst. specialize (P cs). lia.
  - specialize (IH H). lia.
Qed.
Lemma other_other cs : ~ In (other_name cs) cs.
Proof. intro H. apply other_long in H. lia. Qed.

Lemma clean_above f cs : (forall c, In c cs -> silent c = false) -> ~ In f cs -> forall n k x, ~ In f x ->
  (k < n \/ k = n /\ depth_from (length x) cs = None) -> length cs < k \/ k < n -> exists k' y, clean (x ++ repeat f k) cs = repeat f k' ++ y /\ k' < n /\ ~ In f y.
Proof.
  induction cs as [|c cs IH]; intros Hs Hf n k x Hx Hk Hl; cbn [clean].
  - exists k, (rev x). rewrite rev_app_distr. split; [|split].
    + f_equal. clear. induction k; [reflexivity|]. cbn [repeat rev]. rewrite IHk. clear. induction k; [reflexivity|]. cbn [repeat app]. now rewrite IHk.
    + destruct Hk as [Hk|[_ Hk]]; [exact Hk|discriminate].
    + now rewrite <- in_rev.
  - assert (S := Hs c (or_introl eq_refl)). unfold silent in S. rewrite S. cbn [depth_from] in Hk. cbn [length] in Hl.
    assert (Hs' : forall c0, In c0 cs -> silent c0 = false) by firstorder. assert (Hf' : ~ In f cs) by firstorder.
    destruct (String.eqb c "..") eqn:E.
    + destruct x as [|y x]; cbn [tl app length] in *.
      * destruct k as [|k]; cbn [repeat tl].
        -- apply (IH Hs' Hf' n 0 []); [tauto|destruct Hk as [Hk|[Hk _]]; [now left|exfalso; lia]|lia].
        -- apply (IH Hs' Hf' n k []); [tauto|left; lia|lia].
      * apply (IH Hs' Hf' n k x); [firstorder| |lia]. destruct Hk as [Hk|[-> Hk]]; [now left|now right].
    + change (c :: x ++ repeat f k) with ((c :: x) ++ repeat f k). apply (IH Hs' Hf' n k (c :: x)); [|destruct Hk as [Hk|[-> Hk]]; [now left|now right]|lia].
      intros [->|H]; [apply Hf; now left|exact (Hx H)].
Qed.
Lemma repeat_out (f : string) k y n q : repeat f k ++ y = repeat f n ++ q -> k < n -> ~ In f y -> False.
Proof.
  revert n. induction k as [|k IH]; intros [|n] H L N; try lia; cbn [repeat app] in H.
  - subst. apply N. now left.
  - injection H as H. apply (IH n H); [lia|exact N].
Qed.
(** Exactly the names that never lead above the start stay inside every directory. *)
Lemma inside_iff name : (forall dst, under dst (join dst name) = true) <-> never_above name.
Proof.
  split.
  - intros H Hn. set (cs := elements name) in *. set (f := other_name cs). set (n := S (length cs)).
    specialize (H (repeat f n)). apply under_spec in H. destruct H as [q H]. unfold join in H. rewrite clean_elements in H. fold (elements name) in H. fold cs in H.
    destruct (clean_above f cs (elements_clear name) (other_other cs) n n []) as (k & y & E & K & Y); [tauto|now right|left; unfold n; lia|].
    cbn [app] in E. assert (R : rev (repeat f n) = repeat f n).
    { clear. induction n; [reflexivity|]. cbn [repeat rev]. rewrite IHn. clear. induction n; [reflexivity|]. cbn [repeat app]. now rewrite IHn. }
    rewrite R, E in H. exact (repeat_out f k y n q H K Y).
  - intros H dst. apply under_spec. now apply join_depth.
Qed.

(** ** The file system. *)
Lemma stat_cons q n fs p : q <> [] -> stat ((q, n) :: fs) p = if path_eqb q p then Some n else stat fs p.
Proof. intro H. destruct p; cbn [stat assoc_path]; [|reflexivity]. destruct (path_eqb q []) eqn:E; [|reflexivity]. apply path_eqb_spec in E. contradiction. Qed.
Lemma app_one_nil {A} (a : list A) c : a ++ [c] <> [].
Proof. destruct a; discriminate. Qed.

Lemma mkdirs_stat rest : forall fs base fs', mkdirs fs base rest = Some fs' -> forall p,
  stat fs' p = (if existsb (fun k => path_eqb (base ++ firstn (S k) rest) p) (seq 0 (length rest)) then Some FDir else stat fs p) /\
  ((exists k, k < length rest /\ p = base ++ firstn (S k) rest) -> forall d, stat fs p <> Some (FFile d)).
Proof.
  induction rest as [|c r IH]; intros fs base fs' H p; cbn [mkdirs] in H.
  - injection H as <-. cbn. split; [reflexivity|]. intros (k & K & _). lia.
  - assert (G : exists fs1, mkdirs fs1 (base ++ [c]) r = Some fs' /\ (forall d, stat fs (base ++ [c]) <> Some (FFile d)) /\
                 forall q, stat fs1 q = if path_eqb (base ++ [c]) q then Some FDir else stat fs q).
    { destruct (stat fs (base ++ [c])) as [[|d]|] eqn:E; [exists fs|discriminate|exists ((base ++ [c], FDir) :: fs)].
      - split; [exact H|]. split; [congruence|]. intro q. destruct (path_eqb (base ++ [c]) q) eqn:Q; [|reflexivity]. apply path_eqb_spec in Q. now subst q.
      - split; [exact H|]. split; [congruence|]. intro q. apply stat_cons, app_one_nil. }
    destruct G as (fs1 & G1 & G2 & G3). destruct (IH fs1 (base ++ [c]) fs' G1 p) as [S1 S2]. split.
    + rewrite S1. cbn [length seq existsb]. rewrite <- seq_shift.
      assert (X : forall (g : nat -> bool) l, existsb g (map S l) = existsb (fun k => g (S k)) l).
      { intros g l. induction l as [|a l IHl]; [reflexivity|]. cbn [map existsb]. now rewrite IHl. }
      rewrite X. cbn [firstn].
      assert (Y : existsb (fun k => path_eqb ((base ++ [c]) ++ firstn (S k) r) p) (seq 0 (length r)) = existsb (fun k => path_eqb (base ++ c :: firstn (S k) r) p) (seq 0 (length r))).
      { apply existsb_ext || (clear; induction (seq 0 (length r)) as [|a l IHl]; [reflexivity|]; cbn [existsb]; rewrite IHl, <- app_assoc; reflexivity). }
      cbn [firstn] in Y. rewrite Y. rewrite G3. destruct (path_eqb (base ++ [c]) p); cbn [orb]; [match goal with |- (if ?b then _ else _) = _ => destruct b; reflexivity end|reflexivity].
    + intros (k & K & ->) d. cbn [firstn]. destruct k as [|k].
      * cbn [firstn]. apply G2.
      * assert (S3 := S2). cbn [length] in K.
        intro F. refine (S3 _ d _).
        -- exists k. split; [lia|]. rewrite <- app_assoc. reflexivity.
        -- rewrite G3. change (firstn (S (S k)) (c :: r)) with (c :: firstn (S k) r). destruct (path_eqb (base ++ [c]) (base ++ c :: firstn (S k) r)) eqn:Q; [|exact F].
           apply path_eqb_spec in Q. apply app_inv_head in Q. destruct r; [cbn in K; lia|discriminate].
Qed.
Lemma mkdirs_ok rest : forall fs base, (forall k d, k < length rest -> stat fs (base ++ firstn (S k) rest) <> Some (FFile d)) -> mkdirs fs base rest <> None.
Proof.
  induction rest as [|c r IH]; intros fs base H; cbn [mkdirs]; [discriminate|].
  assert (H0 : forall d, stat fs (base ++ [c]) <> Some (FFile d)) by (intro d; apply (H 0 d); cbn; lia).
  assert (H1 : forall k d, k < length r -> stat fs ((base ++ [c]) ++ firstn (S k) r) <> Some (FFile d)).
  { intros k d K. rewrite <- app_assoc. apply (H (S k) d). cbn. lia. }
  destruct (stat fs (base ++ [c])) as [[|d]|] eqn:E; [now apply IH|now destruct (H0 d)|].
  apply IH. intros k d K. rewrite stat_cons by apply app_one_nil. destruct (path_eqb _ _); [discriminate|now apply H1].
Qed.
Lemma mkdir_all_stat fs q fs' : mkdir_all fs q = Some fs' -> forall p, 
  ((exists c s, q = p ++ c ++ s /\ c = [] /\ p <> []) -> stat fs' p = Some FDir /\ forall d, stat fs p <> Some (FFile d)) /\
  ((~ exists s, q = p ++ s) -> stat fs' p = stat fs p).
Proof.
  intros H p. destruct (mkdirs_stat q fs [] fs' H p) as [A B]. cbn [app] in *. split.
  - intros (c & s & E & -> & N). cbn [app] in E.
    assert (W : firstn (S (pred (length p))) q = p /\ pred (length p) < length q).
    { assert (L : S (pred (length p)) = length p) by (destruct p; [congruence|reflexivity]). rewrite L, E, firstn_app, firstn_all, Nat.sub_diag, firstn_O, app_nil_r, app_length. split; [reflexivity|lia]. }
    destruct W as [W1 W2]. split.
    + rewrite A. assert (X : existsb (fun k => path_eqb (firstn (S k) q) p) (seq 0 (length q)) = true).
      { apply existsb_exists. exists (pred (length p)). split; [apply in_seq; lia|]. rewrite W1. apply path_eqb_refl. }
      now rewrite X.
    + apply B. exists (pred (length p)). split; [exact W2|now rewrite W1].
  - intro N. rewrite A. assert (X : existsb (fun k => path_eqb (firstn (S k) q) p) (seq 0 (length q)) = false).
    { apply not_true_is_false. intro X. apply existsb_exists in X. destruct X as (k & _ & K). apply path_eqb_spec in K. apply N. exists (skipn (S k) q). rewrite <- K. now rewrite firstn_skipn. }
    now rewrite X.
Qed.

Lemma create_stat fs q d fs' : create fs q d = Some fs' -> q <> [] /\ stat fs q <> Some FDir /\ stat fs (removelast q) = Some FDir /\
  forall p, stat fs' p = if path_eqb q p then Some (FFile d) else stat fs p.
Proof.
  unfold create. intro H. destruct q as [|c q]; [discriminate|].
  assert (N : c :: q <> []) by discriminate. set (q' := c :: q) in *. clearbody q'. split; [exact N|].
  destruct (stat fs q') as [[|x]|] eqn:E; [discriminate| |];
  (destruct (stat fs (removelast q')) as [[|y]|] eqn:F; [|discriminate|discriminate]; injection H as <-;
   split; [discriminate|]; split; [reflexivity|]; intro p; now apply stat_cons).
Qed.

(** ** Unpacking plain names. *)
Lemma file_of_last es e p d : file_of (es ++ [e]) p d <->
  (teKind e = TReg /\ elements (teName e) = p /\ teData e = d) \/ (~ (teKind e = TReg /\ elements (teName e) = p) /\ file_of es p d).
Proof.
  split.
  - intros (pre & x & post & E & K & N & D & L). destruct (exists_last (l := x :: post)) as (l & z & Z); [discriminate|].
    rewrite Z in E. rewrite app_assoc in E. apply app_inj_tail in E. destruct E as [E ->].
    destruct l as [|x' l]; [cbn in Z; injection Z as -> ->; left; auto|].
    cbn [app] in Z. injection Z as <- ->. right. split.
    + intros [K1 N1]. apply (L z); [apply in_or_app; right; now left|exact K1|exact N1].
    + exists pre, x, l. repeat split; auto. intros e' I. apply L. apply in_or_app. now left.
  - intros [(K & N & D)|(X & pre & x & post & -> & K & N & D & L)].
    + exists es, e, []. repeat split; auto.
    + exists pre, x, (post ++ [e]). rewrite <- app_assoc. repeat split; auto. intros e' I K1 N1. apply in_app_or in I. destruct I as [I|[<-|[]]]; [now apply (L e')|].
      apply X. now split.
Qed.
Lemma dir_of_last es e p : dir_of (es ++ [e]) p <-> dir_of es p \/ (teKind e = TDir /\ exists q, elements (teName e) = p ++ q).
Proof.
  split.
  - intros (x & q & I & K & N). apply in_app_or in I. destruct I as [I|[->|[]]]; [left; now exists x, q|right; split; [exact K|now exists q]].
  - intros [(x & q & I & K & N)|(K & q & N)]; [exists x, q|exists e, q]; repeat split; auto; apply in_or_app; [now left|right; now left].
Qed.

(** The disk after the entries [es], starting from [fs0] with a fresh directory. *)
Record unpacked (tmp : path) (fs0 : fsys) (es : list tentry) (fs : fsys) : Prop := mkUnpacked {
  up_file : forall p d, stat fs (tmp ++ p) = Some (FFile d) <-> file_of es p d;
  up_dir : forall p, stat fs (tmp ++ p) = Some FDir <-> p = [] \/ (dir_of es p /\ forall d, ~ file_of es p d);
  up_parent : forall p c, stat fs (tmp ++ p ++ [c]) <> None -> stat fs (tmp ++ p) = Some FDir;
  up_out : forall p, under tmp p = false -> stat fs p = stat fs0 p }.

Lemma file_of_nil p d : ~ file_of [] p d.
Proof. intros (pre & x & post & E & _). destruct pre; discriminate. Qed.
Lemma unpacked_start tmp fs : fresh fs tmp -> unpacked tmp fs [] ((tmp, FDir) :: fs).
Proof.
  intros (N & F & _).
  assert (S : forall p, stat ((tmp, FDir) :: fs) (tmp ++ p) = match p with [] => Some FDir | _ => None end).
  { intro p. rewrite stat_cons by exact N. destruct (path_eqb tmp (tmp ++ p)) eqn:E.
    - apply path_eqb_spec in E. rewrite <- (app_nil_r tmp) in E at 1. apply app_inv_head in E. now subst p.
    - rewrite F. destruct p; [|reflexivity]. rewrite app_nil_r, path_eqb_refl in E. discriminate. }
  constructor.
  - intros p d. rewrite S. split; [now destruct p|]. intro H. now apply file_of_nil in H.
  - intro p. rewrite S. split; [destruct p; [now left|discriminate]|]. intros [->|[(x & q & [] & _) _]]. reflexivity.
  - intros p c. rewrite !S. destruct p; cbn [app]; congruence.
  - intros p U. rewrite stat_cons by exact N. destruct (path_eqb tmp p) eqn:E; [|reflexivity]. apply path_eqb_spec in E. subst p.
    assert (X : under tmp tmp = true) by (apply under_spec; exists []; now rewrite app_nil_r). congruence.
Qed.

Lemma removelast_app' {A} (a b : list A) : b <> [] -> removelast (a ++ b) = a ++ removelast b.
Proof. apply removelast_app. Qed.
Lemma path_eqb_app t a b : path_eqb (t ++ a) (t ++ b) = path_eqb a b.
Proof.
  destruct (path_eqb a b) eqn:E.
  - apply path_eqb_spec in E. subst. apply path_eqb_refl.
  - apply not_true_is_false. intro H. apply path_eqb_spec in H. apply app_inv_head in H. subst. rewrite path_eqb_refl in E. discriminate.
Qed.
Lemma unpacked_step tmp fs0 es e fs fs' : plain e -> (forall p c q, tmp = p ++ c :: q -> stat fs0 p = Some FDir) ->
  unpacked tmp fs0 es fs -> extract1 tmp e fs = Some fs' -> unpacked tmp fs0 (es ++ [e]) fs'.
Proof.
  intros P T U H. unfold extract1 in H. rewrite join_plain in H by exact P. set (n := elements (teName e)) in *. destruct U as [UF UD UP UO].
  destruct (teKind e) eqn:K.
  - (* directory *)
    assert (FL : forall p d, file_of (es ++ [e]) p d <-> file_of es p d).
    { intros p d. rewrite file_of_last, K. split; [intros [[X _]|[_ X]]; [discriminate|exact X]|]. intro X. right. split; [intros [Y _]; discriminate|exact X]. }
    assert (DL : forall p, dir_of (es ++ [e]) p <-> dir_of es p \/ exists q, n = p ++ q).
    { intro p. rewrite dir_of_last, K. fold n. tauto. }
    destruct (stat fs (tmp ++ n)) eqn:E.
    + injection H as <-. constructor; auto.
      * intros p d. now rewrite FL.
      * intro p. rewrite UD, DL. split.
        -- intros [->|[D N]]; [now left|]. right. split; [now left|]. intros d X. apply FL in X. now apply (N d).
        -- intros [->|[[D|[q Q]] N]]; [now left| |].
           ++ right. split; [exact D|]. intros d X. apply (N d). now apply FL.
           ++ destruct p as [|c p]; [now left|]. 
              assert (X : stat fs (tmp ++ c :: p) = Some FDir).
              { destruct q as [|c1 q1].
                - rewrite app_nil_r in Q. rewrite <- Q. destruct f; [exact E|]. apply UF in E. rewrite Q in E. destruct (N data). now apply FL.
                - (* below something that exists all is directories *)
                  assert (G : forall q1 c1 p1, stat fs (tmp ++ p1 ++ c1 :: q1) <> None -> stat fs (tmp ++ p1) = Some FDir).
                  { clear -UP. intro q1. induction q1 as [|c2 q1 IH] using rev_ind; intros c1 p1 X; [now apply (UP p1 c1)|].
                    apply (IH c1 p1). assert (Y := UP (p1 ++ c1 :: q1) c2). rewrite <- app_assoc in Y. cbn [app] in Y. rewrite (Y X). discriminate. }
                  apply (G q1 c1). rewrite <- Q, E. discriminate. }
              apply UD in X. destruct X as [X|X]; [discriminate|]. now right.
    + assert (M := mkdir_all_stat fs _ _ H).
      assert (In1 : forall p, (exists q, n = p ++ q) -> tmp ++ p <> [] -> stat fs' (tmp ++ p) = Some FDir /\ forall d, stat fs (tmp ++ p) <> Some (FFile d)).
      { intros p [q Q] NE. apply (proj1 (M (tmp ++ p))). exists [], q. rewrite Q, app_assoc. auto. }
      assert (Out1 : forall p, (~ exists q, n = p ++ q) -> stat fs' (tmp ++ p) = stat fs (tmp ++ p)).
      { intros p Q. apply (proj2 (M (tmp ++ p))). intros [s S]. rewrite <- app_assoc in S. apply app_inv_head in S. apply Q. now exists s. }
      assert (Nil : stat fs (tmp ++ []) = Some FDir) by (apply UD; now left).
      assert (Dec : forall p, (exists q, n = p ++ q) \/ ~ exists q, n = p ++ q).
      { intro p. destruct (under p n) eqn:X; [left; now apply under_spec|right; intro Y; apply under_spec in Y; congruence]. }
      assert (NilE : forall p, tmp ++ p = [] -> p = []) by (intros p X; now apply app_eq_nil in X).
      assert (SD : forall p, (exists q, n = p ++ q) -> stat fs' (tmp ++ p) = Some FDir).
      { intros p Q. destruct (tmp ++ p) eqn:X; [reflexivity|]. rewrite <- X. apply In1; [exact Q|congruence]. }
      constructor.
      * intros p d. rewrite FL. destruct (Dec p) as [Q|Q].
        -- rewrite (SD p Q). split; [discriminate|]. intro X. apply UF in X. destruct (tmp ++ p) eqn:Z; [discriminate|]. rewrite <- Z in X.
           destruct (In1 p Q) as [_ Y]; [congruence|]. now destruct (Y d).
        -- rewrite (Out1 p Q). apply UF.
      * intro p. rewrite DL. destruct (Dec p) as [Q|Q].
        -- split; [|intros _; now apply SD]. intros _. destruct (list_eq_dec string_dec p []) as [->|NE]; [now left|]. right. split; [now right|].
           intros d X. apply FL in X. apply UF in X. destruct (In1 p Q) as [_ Y]; [intro Z; now apply NilE in Z|]. now destruct (Y d).
        -- rewrite (Out1 p Q), UD. split.
           ++ intros [->|[D N]]; [now left|]. right. split; [now left|]. intros d X. apply (N d). now apply FL.
           ++ intros [->|[[D|D] N]]; [now left| |contradiction]. right. split; [exact D|]. intros d X. apply (N d). now apply FL.
      * intros p c X. destruct (Dec (p ++ [c])) as [[q Q]|Q].
        -- apply SD. exists (c :: q). rewrite Q, <- app_assoc. reflexivity.
        -- rewrite (Out1 _ Q) in X. apply UP in X. destruct (Dec p) as [Z|Z]; [now apply SD|now rewrite (Out1 _ Z)].
      * intros p X. rewrite <- UO by exact X. 
        destruct (under p tmp) eqn:Y.
        -- apply under_spec in Y. destruct Y as [q Y]. destruct q as [|c q].
           { rewrite app_nil_r in Y. subst p. assert (under tmp tmp = true) by (apply under_spec; exists []; now rewrite app_nil_r). congruence. }
           rewrite UO by exact X. rewrite (T p c q Y). destruct p as [|a p]; [reflexivity|]. apply (proj1 (M (a :: p))). exists [], (c :: q ++ n). cbn [app]. rewrite Y at 1. rewrite <- app_assoc. repeat split; discriminate.
        -- apply (proj2 (M p)). intros [s S]. 
           assert (Z : under tmp p = true \/ under p tmp = true).
           { rewrite !under_spec. clear -S. revert p S. induction tmp as [|a t IH]; intros p S; [left; now exists p|]. destruct p as [|b p]; [right; exists (a :: t); reflexivity|].
             cbn [app] in S. injection S as <- S. destruct (IH p S) as [[q ->]|[q ->]]; [left|right]; now exists q. }
           destruct Z; congruence.
  - (* file *)
    destruct (create_stat _ _ _ _ H) as (N & ND & NP & S).
    assert (FL := file_of_last es e). fold n in FL.
    assert (DL : forall p, dir_of (es ++ [e]) p <-> dir_of es p) by (intro p; rewrite dir_of_last, K; split; [intros [X|[X _]]; [exact X|discriminate]|now left]).
    assert (NN : n <> []) by (intros X; apply ND; rewrite X; apply UD; now left).
    constructor.
    + intros p d. rewrite S, path_eqb_app, FL, K. destruct (path_eqb n p) eqn:E.
      * apply path_eqb_spec in E. split; [intro X; injection X as ->; left; auto|]. intros [(_ & _ & ->)|[X _]]; [reflexivity|]. destruct X. auto.
      * rewrite UF. split; [intro X; right; split; [|exact X]|].
        -- intros [_ Y]. rewrite Y, path_eqb_refl in E. discriminate.
        -- intros [(_ & Y & _)|[_ X]]; [rewrite Y, path_eqb_refl in E; discriminate|exact X].
    + intro p. rewrite S, path_eqb_app, DL. destruct (path_eqb n p) eqn:E.
      * apply path_eqb_spec in E. subst p. split; [discriminate|]. intros [X|[_ X]]; [congruence|]. destruct (X (teData e)). apply FL. left. auto.
      * rewrite UD. split; (intros [X|[D X]]; [now left|right; split; [exact D|]]; intros d Y; apply (X d)).
        -- apply FL in Y. destruct Y as [(_ & Y & _)|[_ Y]]; [rewrite Y, path_eqb_refl in E; discriminate|exact Y].
        -- apply FL. right. split; [|exact Y]. intros [_ Z]. rewrite Z, path_eqb_refl in E. discriminate.
    + intros p c X. rewrite S, path_eqb_app in X. rewrite S, path_eqb_app.
      assert (Y : stat fs (tmp ++ p) = Some FDir).
      { destruct (path_eqb n (p ++ [c])) eqn:E; [|now apply (UP p c)]. apply path_eqb_spec in E. rewrite E, app_assoc, removelast_last in NP. exact NP. }
      destruct (path_eqb n p) eqn:Q; [|exact Y]. apply path_eqb_spec in Q. subst p. congruence.
    + intros p X. rewrite S. destruct (path_eqb (tmp ++ n) p) eqn:E; [|now apply UO]. apply path_eqb_spec in E. subst p.
      assert (under tmp (tmp ++ n) = true) by (apply under_spec; now exists n). congruence.
  - (* other *)
    injection H as <-. 
    assert (FL : forall p d, file_of (es ++ [e]) p d <-> file_of es p d).
    { intros p d. rewrite file_of_last, K. split; [intros [[X _]|[_ X]]; [discriminate|exact X]|]. intro X. right. split; [intros [Y _]; discriminate|exact X]. }
    assert (DL : forall p, dir_of (es ++ [e]) p <-> dir_of es p) by (intro p; rewrite dir_of_last, K; split; [intros [X|[X _]]; [exact X|discriminate]|now left]).
    constructor; auto; [intros p d; now rewrite FL|]. intro p. rewrite UD, DL. split; (intros [X|[D X]]; [now left|right; split; [exact D|]]; intros d Y; apply (X d); now apply FL).
Qed.

Lemma extract_unpacked tmp fs0 : (forall p c q, tmp = p ++ c :: q -> stat fs0 p = Some FDir) -> forall es done complete fs fs', Forall plain es -> unpacked tmp fs0 done fs ->
  extract tmp es complete fs = (fs', true) -> unpacked tmp fs0 (done ++ es) fs' /\ complete = true.
Proof.
  intro T. induction es as [|e es IH]; intros done complete fs fs' P U H; cbn [extract] in H.
  - injection H as <- ->. now rewrite app_nil_r.
  - inversion P as [|? ? P1 P2]; subst. destruct (extract1 tmp e fs) as [fs1|] eqn:E; [|discriminate].
    replace (done ++ e :: es) with ((done ++ [e]) ++ es) by now rewrite <- app_assoc. apply (IH (done ++ [e]) complete fs1 fs'); [exact P2| |exact H].
    now apply (unpacked_step tmp fs0 done e fs).
Qed.

(** Archives in order are unpacked to their end. *)
Lemma prefix_in tmp n p : under tmp p = false -> (exists s, tmp ++ n = p ++ s) -> exists c q, tmp = p ++ c :: q.
Proof.
  intros U [s S]. revert p U S. induction tmp as [|a t IH]; intros p U S; cbn [under] in U; [discriminate|].
  destruct p as [|b p]; [now exists a, t|]. cbn [app] in S. injection S as <- S. rewrite String.eqb_refl in U. cbn [andb] in U.
  destruct (IH p U S) as (c & q & ->). now exists c, q.
Qed.
Lemma extract_success tmp fs0 : (forall p c q, tmp = p ++ c :: q -> stat fs0 p = Some FDir) -> forall es done complete fs, Forall plain es -> well_ordered (done ++ es) -> unpacked tmp fs0 done fs ->
  snd (extract tmp es complete fs) = complete.
Proof.
  intro T. induction es as [|e es IH]; intros done complete fs P [W1 W2] U; cbn [extract]; [reflexivity|].
  inversion P as [|? ? P1 P2]; subst.
  assert (X : exists fs', extract1 tmp e fs = Some fs').
  { unfold extract1. rewrite join_plain by exact P1. set (n := elements (teName e)). destruct (teKind e) eqn:K; [| |now exists fs].
    - destruct (stat fs (tmp ++ n)) eqn:S0; [now exists fs|]. destruct (mkdir_all fs (tmp ++ n)) as [f|] eqn:M; [now exists f|]. exfalso.
      apply (mkdirs_ok (tmp ++ n) fs []); [|exact M]. intros k d Hk. cbn [app]. intro Z.
      set (p := firstn (S k) (tmp ++ n)) in *. assert (Pf : exists s, tmp ++ n = p ++ s) by (exists (skipn (S k) (tmp ++ n)); unfold p; now rewrite firstn_skipn).
      destruct (under tmp p) eqn:Un.
      + apply under_spec in Un. destruct Un as [q Q]. rewrite Q in Z. apply (up_file _ _ _ _ U) in Z. destruct Z as (pre & x & post & E & Kx & Nx & _).
        apply (W2 x); [rewrite E, <- app_assoc; apply in_or_app; right; now left|exact Kx|]. destruct Pf as [s Pf]. rewrite Q, <- app_assoc in Pf. apply app_inv_head in Pf.
        exists e, s. split; [apply in_or_app; right; now left|]. split; [exact K|]. rewrite Nx. exact Pf.
      + destruct (prefix_in tmp n p Un Pf) as (c & q & Q). rewrite (up_out _ _ _ _ U) in Z by exact Un. rewrite (T p c q Q) in Z. discriminate.
    - destruct (W1 done e es eq_refl K) as [N1 N2]. fold n in N1, N2. unfold create.
      assert (Y : stat fs (removelast (tmp ++ n)) = Some FDir).
      { rewrite removelast_app by exact N1. apply (up_dir _ _ _ _ U). destruct N2 as [N2|N2]; [now left|right]. split; [exact N2|].
        intros d (pre & x & post & E & Kx & Nx & _). apply (W2 x); [rewrite E, <- app_assoc; apply in_or_app; right; now left|exact Kx|]. rewrite Nx.
        destruct N2 as (y & q & Iy & Ky & Ny). exists y, q. split; [apply in_or_app; now left|now split]. }
      rewrite Y. destruct (stat fs (tmp ++ n)) as [[|d]|] eqn:S; [|eexists; reflexivity|eexists; reflexivity].
      exfalso. apply (up_dir _ _ _ _ U) in S. destruct S as [S|[S _]]; [contradiction|]. apply (W2 e); [apply in_or_app; right; now left|exact K|].
      destruct S as (y & q & Iy & Ky & Ny). exists y, q. split; [apply in_or_app; now left|now split]. }
  destruct X as [fs' X]. rewrite X. apply (IH (done ++ [e])); [exact P2|rewrite <- app_assoc; now split|]. now apply (unpacked_step tmp fs0 done e fs).
Qed.

(** Names that never lead above the start change nothing outside. *)
Lemma extract_outside tmp : forall es complete fs, Forall (fun e => never_above (teName e)) es -> (forall p q, tmp = p ++ q -> stat fs p = Some FDir) ->
  forall p, under tmp p = false -> stat (fst (extract tmp es complete fs)) p = stat fs p.
Proof.
  induction es as [|e es IH]; intros complete fs P T p Hp; cbn [extract]; [reflexivity|]. inversion P as [|? ? P1 P2]; subst.
  destruct (extract1 tmp e fs) as [fs1|] eqn:E; [|reflexivity].
  destruct (join_depth tmp (teName e) P1) as [n N]. unfold extract1 in E. rewrite N in E.
  assert (G : (forall p, under tmp p = false -> stat fs1 p = stat fs p) /\ stat fs1 tmp = Some FDir).
  { destruct (teKind e).
    - destruct (stat fs (tmp ++ n)); [injection E as <-; split; [reflexivity|apply (T tmp []); now rewrite app_nil_r]|].
      assert (M := mkdir_all_stat fs _ _ E). split.
      + intros r U. destruct (under r (tmp ++ n)) eqn:Z.
        * apply under_spec in Z. destruct Z as [s Z]. destruct (prefix_in tmp n r U (ex_intro _ s Z)) as (c & q & Q). rewrite (T r (c :: q) Q). destruct r as [|a r]; [reflexivity|].
          apply (proj1 (M (a :: r))). exists [], s. cbn [app]. repeat split; [exact Z|discriminate].
        * apply (proj2 (M r)). intro X. apply under_spec in X. congruence.
      + destruct tmp as [|a t] eqn:Et; [reflexivity|]. apply (proj1 (M (a :: t))). exists [], n. repeat split. discriminate.
    - destruct (create_stat _ _ _ _ E) as (N0 & ND & NP & S). split.
      + intros r U. rewrite S. destruct (path_eqb (tmp ++ n) r) eqn:Q; [|reflexivity]. apply path_eqb_spec in Q. subst r.
        assert (under tmp (tmp ++ n) = true) by (apply under_spec; now exists n). congruence.
      + rewrite S. destruct (path_eqb (tmp ++ n) tmp) eqn:Q; [|apply (T tmp []); now rewrite app_nil_r]. apply path_eqb_spec in Q. rewrite Q in ND.
        destruct ND. apply (T tmp []). now rewrite app_nil_r.
    - injection E as <-. split; [reflexivity|apply (T tmp []); now rewrite app_nil_r]. }
  destruct G as [G1 G2]. rewrite (IH complete fs1 P2); [now apply G1| |exact Hp].
  intros r q Q. destruct q as [|c q]; [rewrite app_nil_r in Q; now subst r|]. rewrite G1; [now apply (T r (c :: q))|].
  apply not_true_is_false. intro X. apply under_spec in X. destruct X as [s X]. rewrite Q in X. rewrite <- app_assoc in X. apply (f_equal (@length string)) in X. rewrite !app_length in X. cbn in X. lia.
Qed.

(** ** Looking up. *)
Lemma leb_refl a : String.leb a a = true.
Proof. destruct (String.leb_total a a); assumption. Qed.
Lemma compare_refl a : String.compare a a = Eq.
Proof. assert (X := String.compare_antisym a a). now destruct (String.compare a a). Qed.
Lemma leb_trans a b c : String.leb a b = true -> String.leb b c = true -> String.leb a c = true.
Proof.
  unfold String.leb. revert b c. induction a as [|x a IH]; intros b c H1 H2.
  - destruct c; reflexivity.
  - destruct b as [|y b]; [discriminate|]. destruct c as [|z c]; [discriminate H2|].
    cbn [String.compare] in *. unfold Ascii.compare in *.
    destruct (N.compare_spec (N_of_ascii x) (N_of_ascii y)) as [E1|E1|E1]; [| |discriminate];
    (destruct (N.compare_spec (N_of_ascii y) (N_of_ascii z)) as [E2|E2|E2]; [| |discriminate]);
    (destruct (N.compare_spec (N_of_ascii x) (N_of_ascii z)) as [E3|E3|E3]; try reflexivity; try (exfalso; lia)).
    now apply (IH b c).
Qed.
Definition le_s (a b : string) : Prop := String.leb a b = true.
Lemma insert_in x s l : In x (insert s l) <-> x = s \/ In x l.
Proof. induction l as [|a l IH]; cbn [insert]; [cbn; intuition|]. destruct (String.leb s a); cbn [In]; [intuition|]. rewrite IH. intuition. Qed.
Lemma insert_sorted s l : StronglySorted le_s l -> StronglySorted le_s (insert s l).
Proof.
  induction 1 as [|a l Hs IH Hf]; cbn [insert]; [constructor; constructor|]. destruct (String.leb s a) eqn:E.
  - constructor; [now constructor|]. constructor; [exact E|]. rewrite Forall_forall in *. intros x X. apply (leb_trans s a x E). now apply Hf.
  - constructor; [exact IH|]. rewrite Forall_forall in *. intros x X. apply insert_in in X. destruct X as [->|X]; [|now apply Hf].
    destruct (String.leb_total s a) as [Y|Y]; [congruence|exact Y].
Qed.
Lemma sort_in x l : In x (sort l) <-> In x l.
Proof. induction l as [|a l IH]; [reflexivity|]. cbn [sort fold_right]. fold (sort l). rewrite insert_in, IH. cbn [In]. intuition. Qed.
Lemma sort_sorted l : StronglySorted le_s (sort l).
Proof. induction l; cbn; [constructor|]. now apply insert_sorted. Qed.
Lemma child_of_spec d p c : child_of d p = Some c <-> p = d ++ [c].
Proof.
  revert p. induction d as [|a d IH]; intro p; cbn [child_of].
  - destruct p as [|b [|? ?]]; cbn; split; try congruence; try discriminate.
  - destruct p as [|b q]; [split; discriminate|]. destruct (String.eqb a b) eqn:E.
    + apply String.eqb_eq in E. subst b. rewrite IH. cbn [app]. split; congruence.
    + split; [discriminate|]. intro H. injection H as -> ->. now rewrite String.eqb_refl in E.
Qed.
Lemma assoc_listed fs p n : assoc_path fs p = Some n -> In p (map fst fs).
Proof. induction fs as [|[q m] fs IH]; cbn [assoc_path]; [discriminate|]. destruct (path_eqb q p) eqn:E; [apply path_eqb_spec in E; intros _; now left|]. intro H. right. now apply IH. Qed.
Lemma read_dir_in fs d c n : stat fs (d ++ [c]) = Some n -> In c (read_dir fs d).
Proof.
  intro H. apply sort_in, nodup_In. unfold children. apply in_flat_map.
  assert (X : In (d ++ [c]) (map fst fs)).
  { destruct (d ++ [c]) eqn:E; [now destruct d|]. apply (assoc_listed fs _ n). exact H. }
  apply in_map_iff in X. destruct X as (e & E1 & E2). exists e. split; [exact E2|].
  assert (Y : child_of d (fst e) = Some c) by now apply child_of_spec. rewrite Y. now left.
Qed.
Lemma scan_names_spec fs d : forall names l, scan_names fs d names = Some l ->
  (forall g p, In (g, p) l <-> In g names /\ stat fs (d ++ [g]) = Some FDir /\ stat fs (d ++ [g; "pathname"]) = Some (FFile p)) /\
  (StronglySorted le_s names -> StronglySorted (fun a b => le_s (fst a) (fst b)) l).
Proof.
  induction names as [|n names IH]; intros l H; cbn [scan_names] in H.
  - injection H as <-. split; [|intros _; constructor]. cbn. tauto.
  - destruct (stat fs (d ++ [n])) as [[|x]|] eqn:E1.
    2,3: destruct (IH l H) as [A B]; split; [|intro S; apply B; now inversion S]; intros g p; rewrite A; cbn [In]; split; [tauto|intros [[->|I] [X Y]]; [congruence|tauto]].
    destruct (stat fs (d ++ [n; "pathname"])) as [[|p0]|] eqn:E2; [discriminate| |].
    + destruct (scan_names fs d names) as [l0|] eqn:E3; [|discriminate]. injection H as <-. destruct (IH l0 eq_refl) as [A B]. split.
      * intros g p. cbn [In]. rewrite A. split.
        -- intros [X|X]; [injection X as -> ->; auto|tauto].
        -- intros [[->|I] [X Y]]; [left; congruence|right; auto].
      * intro S. inversion S as [|? ? S1 S2]; subst. constructor; [now apply B|]. rewrite Forall_forall in *. intros [g p] I. apply A in I. now apply S2.
    + destruct (IH l H) as [A B]; split; [|intro S; apply B; now inversion S]; intros g p; rewrite A; cbn [In]; split; [tauto|intros [[->|I] [X Y]]; [congruence|tauto]].
Qed.
Lemma scan_names_none fs d : forall names, scan_names fs d names = None <-> exists g, In g names /\ stat fs (d ++ [g]) = Some FDir /\ stat fs (d ++ [g; "pathname"]) = Some FDir.
Proof.
  induction names as [|n names IH]; cbn [scan_names]; [split; [discriminate|intros (g & [] & _)]|].
  destruct (stat fs (d ++ [n])) as [[|x]|] eqn:E1.
  2,3: rewrite IH; split; [intros (g & I & X); exists g; cbn; tauto|intros (g & [->|I] & X & Y); [congruence|now exists g]].
  destruct (stat fs (d ++ [n; "pathname"])) as [[|p0]|] eqn:E2.
  - split; [|reflexivity]. intros _. exists n. cbn. auto.
  - assert (X : forall o : option (list (string * string)), match o with Some l => Some ((n, p0) :: l) | None => None end = None <-> o = None) by (intros [o|]; split; congruence).
    rewrite X, IH. split; [intros (g & I & Y); exists g; cbn; tauto|intros (g & [->|I] & Y & Z); [congruence|now exists g]].
  - rewrite IH; split; [intros (g & I & X); exists g; cbn; tauto|intros (g & [->|I] & X & Y); [congruence|now exists g]].
Qed.
Lemma last_with_none {A} (k : A -> bool) l : last_with k l = None <-> forall a, In a l -> k a = false.
Proof.
  induction l as [|a l IH]; cbn [last_with]; [split; [intros _ a []|reflexivity]|].
  destruct (last_with k l) as [b|] eqn:E.
  - split; [discriminate|]. intro H. assert (X : Some b = None) by (apply IH; intros x X; apply H; now right). discriminate.
  - destruct (k a) eqn:F; split; try discriminate; intro H.
    + rewrite (H a (or_introl eq_refl)) in F. discriminate.
    + intros x [->|X]; [exact F|]. now apply (proj1 IH).
    + reflexivity.
Qed.
Lemma last_with_in {A} (k : A -> bool) l b : last_with k l = Some b -> In b l /\ k b = true.
Proof.
  induction l as [|a l IH]; cbn [last_with]; [discriminate|]. destruct (last_with k l) as [c|]; [intro H; injection H as ->; destruct (IH eq_refl); split; [now right|assumption]|].
  destruct (k a) eqn:F; [|discriminate]. intro H. injection H as ->. split; [now left|exact F].
Qed.
Lemma last_with_sorted {A} (R : A -> A -> Prop) (k : A -> bool) l b : (forall a, R a a) -> StronglySorted R l -> last_with k l = Some b -> forall a, In a l -> k a = true -> R a b.
Proof.
  intros Rr S. induction S as [|x l S IH F]; cbn [last_with]; [discriminate|]. intros H a I K. rewrite Forall_forall in F.
  destruct (last_with k l) as [c|] eqn:E.
  - injection H as ->. destruct I as [->|I]; [|now apply IH]. apply F. now apply last_with_in in E.
  - destruct I as [->|I]; [rewrite K in H; injection H as ->; apply Rr|]. rewrite (proj1 (last_with_none k l) E a I) in K. discriminate.
Qed.

(** Everything about an opened package. *)
Lemma open_ok tmp fs es complete fs' a : fresh fs tmp -> Forall plain es -> open_package tmp es complete fs = (fs', Some a) -> unpacked tmp fs es fs' /\ scan fs' tmp = Some a.
Proof.
  intros F P H. unfold open_package in H. destruct (extract tmp es complete ((tmp, FDir) :: fs)) as [fs1 ok] eqn:E. destruct ok; [|discriminate]. injection H as <- H.
  split; [|exact H]. destruct F as (F1 & F2 & F3). destruct (extract_unpacked tmp fs F3 es [] complete _ fs1 P (unpacked_start tmp fs (conj F1 (conj F2 F3))) E) as [U _]. exact U.
Qed.
Lemma package_files tmp fs es complete fs' a : fresh fs tmp -> Forall plain es -> open_package tmp es complete fs = (fs', Some a) ->
  (forall p d, stat fs' (tmp ++ p) = Some (FFile d) <-> file_of es p d) /\
  (forall p, stat fs' (tmp ++ p) = Some FDir <-> p = [] \/ (dir_of es p /\ forall d, ~ file_of es p d)) /\
  (forall p, under tmp p = false -> stat fs' p = stat fs p).
Proof. intros F P H. destruct (open_ok _ _ _ _ _ _ F P H) as [[A B _ D] _]. auto. Qed.
Lemma package_listed tmp fs es complete fs' a : fresh fs tmp -> Forall plain es -> open_package tmp es complete fs = (fs', Some a) ->
  forall g p, In (g, p) a <-> file_of es [g; "pathname"] p.
Proof.
  intros F P H g p. destruct (open_ok _ _ _ _ _ _ F P H) as [U S]. destruct (scan_names_spec _ _ _ _ S) as [A _]. rewrite A. split.
  - intros (_ & _ & X). now apply (up_file _ _ _ _ U) in X.
  - intro X. apply (up_file _ _ _ _ U) in X. assert (Y : stat fs' (tmp ++ [g]) = Some FDir) by (apply (up_parent _ _ _ _ U [g] "pathname"); cbn [app]; congruence).
    split; [now apply (read_dir_in fs' tmp g FDir)|now split].
Qed.
Lemma file_of_fun es p d d' : file_of es p d -> file_of es p d' -> d = d'.
Proof.
  revert d d'. induction es as [|e es IH] using rev_ind; intros d d' H H'; [now apply file_of_nil in H|]. apply file_of_last in H. apply file_of_last in H'.
  destruct H as [(A & B & C)|[A B]], H' as [(A' & B' & C')|[A' B']]; try congruence; try tauto. now apply IH.
Qed.
Lemma package_guid tmp fs es complete fs' a : fresh fs tmp -> Forall plain es -> open_package tmp es complete fs = (fs', Some a) ->
  forall g x, get_asset a g = Some x <-> fst x = g /\ file_of es [g; "pathname"] (snd x).
Proof.
  intros F P H g [g' p]. assert (L := package_listed _ _ _ _ _ _ F P H). unfold get_asset. cbn [fst snd]. split.
  - intro X. apply last_with_in in X. destruct X as [X1 X2]. cbn [fst] in X2. apply String.eqb_eq in X2. subst g'. split; [reflexivity|now apply L].
  - intros [-> X]. destruct (last_with (fun x => String.eqb (fst x) g) a) as [[g2 p2]|] eqn:E.
    + apply last_with_in in E. destruct E as [E1 E2]. cbn [fst] in E2. apply String.eqb_eq in E2. subst g2. apply L in E1. now rewrite (file_of_fun _ _ _ _ E1 X).
    + assert (Y := proj1 (last_with_none _ _) E (g, p) (proj2 (L g p) X)). cbn [fst] in Y. now rewrite String.eqb_refl in Y.
Qed.
Lemma package_path tmp fs es complete fs' a : fresh fs tmp -> Forall plain es -> open_package tmp es complete fs = (fs', Some a) ->
  forall p g q, get_by_path a p = Some (g, q) <-> q = p /\ file_of es [g; "pathname"] p /\ forall g', file_of es [g'; "pathname"] p -> String.leb g' g = true.
Proof.
  intros F P H p g q. assert (L := package_listed _ _ _ _ _ _ F P H). destruct (open_ok _ _ _ _ _ _ F P H) as [U S]. destruct (scan_names_spec _ _ _ _ S) as [_ B].
  specialize (B (sort_sorted _)). unfold get_by_path. 
  assert (M := fun b => last_with_sorted _ (fun x : string * string => String.eqb (snd x) p) a b (fun c => leb_refl (fst c)) B).
  split.
  - intro X. assert (X0 := X). apply last_with_in in X. destruct X as [X1 X2]. cbn [snd] in X2. apply String.eqb_eq in X2. subst q. split; [reflexivity|]. split; [now apply L|].
    intros g' G. apply L in G. apply (M (g, p) X0 (g', p) G). cbn [snd]. apply String.eqb_refl.
  - intros (-> & X & Y). destruct (last_with (fun x => String.eqb (snd x) p) a) as [[g2 p2]|] eqn:E.
    + assert (E0 := E). apply last_with_in in E. destruct E as [E1 E2]. cbn [snd] in E2. apply String.eqb_eq in E2. subst p2.
      assert (Z : String.leb g g2 = true). { apply (M (g2, p) eq_refl (g, p)); [now apply L|]. cbn [snd]. apply String.eqb_refl. }
      apply L in E1. apply Y in E1. now rewrite (String.leb_antisym _ _ E1 Z).
    + assert (Z := proj1 (last_with_none _ _) E (g, p) (proj2 (L g p) X)). cbn [snd] in Z. now rewrite String.eqb_refl in Z.
Qed.
Lemma package_open tmp fs es complete fs' a : fresh fs tmp -> Forall plain es -> open_package tmp es complete fs = (fs', Some a) ->
  forall p d, open_asset fs' tmp a p = Some d <->
    exists g, file_of es [g; "pathname"] p /\ (forall g', file_of es [g'; "pathname"] p -> String.leb g' g = true) /\ file_of es [g; "asset"] d.
Proof.
  intros F P H p d. assert (L := package_path _ _ _ _ _ _ F P H p). destruct (open_ok _ _ _ _ _ _ F P H) as [U _].
  assert (O : forall g, open_file fs' (tmp ++ [g; "asset"]) = Some d <-> file_of es [g; "asset"] d).
  { intro g. rewrite <- (up_file _ _ _ _ U). unfold open_file. destruct (stat fs' (tmp ++ [g; "asset"])) as [[|x]|]; split; congruence. }
  unfold open_asset. split.
  - destruct (get_by_path a p) as [[g q]|] eqn:E; [|discriminate]. intro X. destruct (proj1 (L g q) eq_refl) as (_ & E1 & E2). exists g. split; [exact E1|]. split; [exact E2|now apply O].
  - intros (g & E1 & E2 & E3). rewrite (proj2 (L g p) (conj eq_refl (conj E1 E2))). now apply O.
Qed.
Lemma package_meta tmp fs es complete fs' a : fresh fs tmp -> Forall plain es -> open_package tmp es complete fs = (fs', Some a) ->
  forall x d, open_meta fs' tmp x = Some d <-> file_of es [fst x; "asset.meta"] d.
Proof.
  intros F P H x d. destruct (open_ok _ _ _ _ _ _ F P H) as [U _]. rewrite <- (up_file _ _ _ _ U). unfold open_meta, open_file.
  destruct (stat fs' (tmp ++ [fst x; "asset.meta"])) as [[|y]|]; split; congruence.
Qed.
Lemma package_opens tmp fs es : fresh fs tmp -> Forall plain es -> well_ordered es -> (forall g, ~ dir_of es [g; "pathname"]) -> exists fs' a, open_package tmp es true fs = (fs', Some a).
Proof.
  intros F P W N. assert (F0 := F). destruct F0 as (F1 & F2 & F3). unfold open_package.
  assert (S := extract_success tmp fs F3 es [] true _ P W (unpacked_start tmp fs F)).
  destruct (extract tmp es true ((tmp, FDir) :: fs)) as [fs1 ok] eqn:E. cbn [snd] in S. subst ok.
  destruct (extract_unpacked tmp fs F3 es [] true _ fs1 P (unpacked_start tmp fs F) E) as [U _].
  destruct (scan fs1 tmp) as [a|] eqn:X; [now exists fs1, a|]. unfold scan in X. apply scan_names_none in X. destruct X as (g & _ & _ & X).
  apply (up_dir _ _ _ _ U) in X. destruct X as [X|[X _]]; [discriminate|]. now destruct (N g).
Qed.
Lemma filter_assoc fs tmp p : under tmp p = false -> assoc_path (remove_all fs tmp) p = assoc_path fs p.
Proof.
  intro H. unfold remove_all. induction fs as [|[q n] fs IH]; [reflexivity|]. cbn [filter fst]. destruct (under tmp q) eqn:U; cbn [negb assoc_path].
  - destruct (path_eqb q p) eqn:E; [apply path_eqb_spec in E; subst; congruence|exact IH].
  - now rewrite IH.
Qed.
Lemma filter_gone fs tmp p : under tmp p = true -> assoc_path (remove_all fs tmp) p = None.
Proof.
  intro H. unfold remove_all. induction fs as [|[q n] fs IH]; [reflexivity|]. cbn [filter fst]. destruct (under tmp q) eqn:U; cbn [negb assoc_path]; [exact IH|].
  destruct (path_eqb q p) eqn:E; [apply path_eqb_spec in E; subst; congruence|exact IH].
Qed.
Lemma package_close tmp fs es complete : fresh fs tmp -> Forall (fun e => never_above (teName e)) es ->
  forall p, stat (close_package tmp (fst (open_package tmp es complete fs))) p = stat fs p.
Proof.
  intros (F1 & F2 & F3) P p. unfold open_package.
  assert (X : forall p, under tmp p = false -> stat (fst (extract tmp es complete ((tmp, FDir) :: fs))) p = stat fs p).
  { intros r R. rewrite extract_outside; [|exact P| |exact R].
    - rewrite stat_cons by exact F1. destruct (path_eqb tmp r) eqn:E; [|reflexivity]. apply path_eqb_spec in E. subst r.
      assert (under tmp tmp = true) by (apply under_spec; exists []; now rewrite app_nil_r). congruence.
    - intros r' q Q. rewrite stat_cons by exact F1. destruct (path_eqb tmp r') eqn:E; [reflexivity|]. destruct q as [|c q]; [|now apply (F3 r' c q)].
      rewrite app_nil_r in Q. subst r'. rewrite path_eqb_refl in E. discriminate. }
  destruct (extract tmp es complete ((tmp, FDir) :: fs)) as [fs1 ok]. cbn [fst] in *. unfold close_package. destruct (under tmp p) eqn:U.
  - apply under_spec in U. assert (U0 := U). destruct U as [q ->]. rewrite F2. destruct (tmp ++ q) eqn:E; [now apply app_eq_nil in E|]. cbn [stat]. apply filter_gone. rewrite <- E. apply under_spec. exists q. reflexivity.
  - rewrite <- X by exact U. destruct p as [|c p]; [reflexivity|]. cbn [stat]. now apply filter_assoc.
Qed.
Lemma package_outside tmp fs es complete : fresh fs tmp -> Forall (fun e => never_above (teName e)) es ->
  forall p, under tmp p = false -> stat (fst (open_package tmp es complete fs)) p = stat fs p.
Proof.
  intros F P p U. assert (C := package_close tmp fs es complete F P p). unfold close_package in C. destruct p as [|c p]; [reflexivity|]. cbn [stat] in *. now rewrite filter_assoc in C.
Qed.

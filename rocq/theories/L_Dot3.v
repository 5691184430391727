(** Proofs about the text of the drawings: statements and labels. *)
From Coq Require Import Ascii String List ZArith Bool Lia.
From Verif Require Import Base Num M_Text M_Ensemble M_Graphviz M_Dot S_Svmlight S_Loaders S_Ensemble S_Graphviz S_Dot L_Fixed L_Loaders L_Dot L_Dot2 L_Graphviz3.
Import ListNotations.
Local Open Scope Z_scope.

Definition parses (ts : list token) (l : list stmt) (rest : list token) : Prop := forall f, (length ts < f)%nat -> statements f ts = Some (l, rest).
Definition skip := skip_mark (is_mark ";").
Lemma skip_length r : (length (skip r) <= length r)%nat.
Proof. destruct r as [|k r]; [apply le_n|]. unfold skip. cbn [skip_mark]. destruct (is_mark ";" k); cbn [length]; lia. Qed.
Lemma parses_end rest : parses (TMark "}" :: rest) [] rest.
Proof. intros [|f] H; [cbn in H; lia|]. reflexivity. Qed.
Lemma as_word_show n : as_word (TWord (show_Z n)) = Some (names n).
Proof. cbn [as_word]. rewrite (proj1 (show_not_keyword n)). reflexivity. Qed.
Definition nexts (s : stmt) (x : option (list stmt * list token)) : option (list stmt * list token) := match x with Some (l, r) => Some (s :: l, r) | None => None end.
(** One step of the reader on a node or an edge. *)
Lemma statements_node f n r : statements (S f) (TWord (show_Z n) :: r) =
  match r with
  | TArrow :: j :: r' => match as_word j, attributes_opt r' with Some b, Some (at_, r'') => nexts (SEdge (names n) b at_) (statements f (skip r'')) | _, _ => None end
  | q :: v :: r' => if is_mark "=" q then match as_word v with Some b => nexts (SSet (names n) b) (statements f (skip r')) | None => None end
                    else match attributes_opt r with Some (at_, r'') => nexts (SNode (names n) at_) (statements f (skip r'')) | None => None end
  | _ => match attributes_opt r with Some (at_, r'') => nexts (SNode (names n) at_) (statements f (skip r'')) | None => None end
  end.
Proof.
  cbn [statements]. change (is_mark "}" (TWord (show_Z n))) with false. change (is_mark "{" (TWord (show_Z n))) with false. cbn match.
  rewrite (proj2 (show_not_keyword n)), as_word_show. reflexivity.
Qed.
Lemma node_alone n c rest l r : (c = ";"%char -> parses rest l r) -> (c = "}"%char -> parses (TMark c :: rest) l r) -> c = ";"%char \/ c = "}"%char ->
  parses (TWord (show_Z n) :: TMark c :: rest) (SNode (names n) [] :: l) r.
Proof.
  intros H1 H2 C [|f] L; [cbn in L; lia|]. rewrite statements_node. cbn [length] in L.
  assert (A : attributes_opt (TMark c :: rest) = Some ([], TMark c :: rest)) by (destruct C as [-> | ->]; reflexivity).
  assert (Q : is_mark "=" (TMark c) = false) by (destruct C as [-> | ->]; reflexivity).
  assert (S1 : statements f (skip (TMark c :: rest)) = Some (l, r)).
  { destruct C as [-> | ->].
    - change (skip (TMark ";" :: rest)) with rest. apply H1; [reflexivity|lia].
    - change (skip (TMark "}" :: rest)) with (TMark "}" :: rest). apply H2; [reflexivity|cbn [length]; lia]. }
  destruct rest as [|v r']; rewrite ?Q, A, S1; reflexivity.
Qed.
Lemma parses_ids ids rest : parses (id_tokens ids ++ TMark "}" :: rest) (map (fun i => SNode (names i) []) ids) rest.
Proof.
  destruct ids as [|i ids]; [apply parses_end|]. revert i. induction ids as [|j ids IH]; intros i; cbn [id_tokens map concat app].
  - apply node_alone; [discriminate|intros _; apply parses_end|right; reflexivity].
  - apply node_alone; [intros _; apply (IH j)|discriminate|left; reflexivity].
Qed.
Lemma as_word_fixed : as_word (TWord (lit "label")) = Some (Word (lit "label")) /\ as_word (TWord (lit "fillcolor")) = Some (Word (lit "fillcolor")).
Proof. split; reflexivity. Qed.

Section Items.
Context {N : num}.
Variables (shown : Z -> N -> text) (percent : Z -> Z -> text) (paint : fill (N:=N) -> Z * Z * Z * Z).
Notation itok := (item_tokens shown percent paint).
Notation istm := (item_stmt shown percent paint).
Lemma attributes_label w tok f rest : as_word tok = Some w ->
  attributes (TWord (lit "label") :: TMark "=" :: tok :: fill_tokens paint f ++ TMark "]" :: rest) = Some ((Word (lit "label"), w) :: fill_attrs paint f, rest).
Proof.
  intros W. cbn [attributes]. change (is_mark "]" (TWord (lit "label"))) with false. change (is_mark "=" (TMark "=")) with true. cbn match. rewrite (proj1 as_word_fixed), W.
  destruct f; cbn [fill_tokens fill_attrs app]; reflexivity.
Qed.
Lemma parses_node n tok w f rest l r : as_word tok = Some w -> parses rest l r ->
  parses (TWord (show_Z n) :: TMark "[" :: TWord (lit "label") :: TMark "=" :: tok :: fill_tokens paint f ++ TMark "]" :: TMark ";" :: rest) (SNode (names n) ((Word (lit "label"), w) :: fill_attrs paint f) :: l) r.
Proof.
  intros W P [|g] L; [cbn in L; lia|]. rewrite statements_node. change (is_mark "=" (TMark "[")) with false. cbn match. unfold attributes_opt. change (is_mark "[" (TMark "[")) with true. cbn match.
  rewrite (attributes_label w tok f (TMark ";" :: rest) W). change (skip (TMark ";" :: rest)) with rest. rewrite P; [reflexivity|]. cbn [length] in L. rewrite app_length in L. cbn [length] in L. lia.
Qed.
Lemma parses_item s prec x rest l r : parses rest l r -> parses (itok s prec x ++ rest) (istm s prec x :: l) r.
Proof.
  intros P. destruct x as [i b|i f|p c h|k ids]; cbn [item_tokens item_stmt].
  - rewrite <- !app_assoc. cbn [app]. apply (parses_node i _ (if s then Html (inner shown percent s prec b) else Word (inner shown percent s prec b))); [destruct s; reflexivity|exact P].
  - rewrite <- !app_assoc. cbn [app]. apply parses_node; [reflexivity|exact P].
  - rewrite <- !app_assoc. cbn [app]. intros [|g] L; [cbn in L; lia|]. rewrite statements_node, as_word_show.
    destruct h as [yes|].
    + cbn [app length] in L |- *. assert (A : attributes_opt (TMark "[" :: TWord (lit "labeldistance") :: TMark "=" :: TWord (lit "2.5") :: TMark "," :: TWord (lit "labelangle") :: TMark "=" :: TWord (if yes then lit "45" else lit "-45") :: TMark ","
          :: TWord (lit "headlabel") :: TMark "=" :: TQuoted (if yes then lit "True" else lit "False") :: TMark "]" :: TMark ";" :: rest) =
          Some ([(Word (lit "labeldistance"), Word (lit "2.5")); (Word (lit "labelangle"), Word (if yes then lit "45" else lit "-45")); (Word (lit "headlabel"), Word (if yes then lit "True" else lit "False"))], TMark ";" :: rest)) by (destruct yes; reflexivity).
      rewrite A. change (skip (TMark ";" :: rest)) with rest. rewrite P by lia. reflexivity.
    + cbn [app length] in L |- *. change (attributes_opt (TMark ";" :: rest)) with (Some (@nil (word * word), TMark ";" :: rest)). cbn match. change (skip (TMark ";" :: rest)) with rest. rewrite P by lia. reflexivity.
  - rewrite <- !app_assoc. cbn [app]. intros [|g] L; [cbn in L; lia|]. cbn [length] in L. rewrite app_length in L. cbn [length] in L. cbn [statements].
    change (is_mark "}" (TMark "{")) with false. change (is_mark "{" (TMark "{")) with true. cbn match.
    assert (Q : parses (TWord (lit "rank") :: TMark "=" :: TWord (lit "same") :: TMark ";" :: id_tokens ids ++ TMark "}" :: TMark ";" :: rest) (SSet (Word (lit "rank")) (Word (lit "same")) :: map (fun i => SNode (names i) []) ids) (TMark ";" :: rest)).
    { intros [|h] L2; [cbn in L2; lia|]. cbn [length] in L2. change (statements (S h) (TWord (lit "rank") :: TMark "=" :: TWord (lit "same") :: TMark ";" :: id_tokens ids ++ TMark "}" :: TMark ";" :: rest))
        with (nexts (SSet (Word (lit "rank")) (Word (lit "same"))) (statements h (id_tokens ids ++ TMark "}" :: TMark ";" :: rest))). rewrite (parses_ids ids (TMark ";" :: rest)); [reflexivity|]. lia. }
    rewrite Q by (cbn [length]; rewrite app_length; cbn [length]; lia). change (skip_mark (is_mark ";") (TMark ";" :: rest)) with rest. rewrite P by lia. reflexivity.
Qed.
Lemma parses_items s prec : forall items rest l r, parses rest l r -> parses (concat (map (itok s prec) items) ++ rest) (map (istm s prec) items ++ l) r.
Proof. induction items as [|x items IH]; intros rest l r P; [exact P|]. cbn [map concat]. rewrite <- app_assoc. apply parses_item, IH, P. Qed.

(** The header. *)
Lemma header_read (y : style) (o : options) : exists ts ds, run Between (header y o) = Some (TWord (lit "digraph") :: TWord (lit "Tree") :: TMark "{" :: ts, Between) /\
  Forall decoration ds /\ forall rest l r, parses rest l r -> parses (ts ++ rest) (ds ++ l) r.
Proof.
  unfold header. generalize (o_highlight o || match o_leaves o with Some _ => true | None => false end). generalize (o_parallel o) (y_rounded y). intros p q fl.
  assert (D1 : forall a b rest l r, attributes_opt a = Some (b, TMark ";" :: rest) -> (exists k, a = TMark "[" :: k) -> (length rest < length a)%nat -> parses rest l r -> forall w, In w [lit "node"; lit "edge"; lit "graph"] -> parses (TWord w :: a) (SDefault w b :: l) r).
  { intros a b rest l r A (k & K) LR P w W [|g] L; [cbn in L; lia|]. cbn [statements]. cbn [length] in L.
    assert (M : is_mark "}" (TWord w) = false /\ is_mark "{" (TWord w) = false /\ as_default (TWord w) = Some w) by (cbn in W; repeat (destruct W as [<-|W]; [repeat split|]); contradiction).
    destruct M as (-> & -> & ->). rewrite A. rewrite K at 1. change (is_mark "[" (TMark "[")) with true. cbn match. change (skip_mark (is_mark ";") (TMark ";" :: rest)) with rest. rewrite P by lia. reflexivity. }
  set (node := fun a => SDefault (lit "node") ((Word (lit "shape"), Word (lit "box")) :: a)).
  set (looks := fun t => [(Word (lit "style"), Word (lit t)); (Word (lit "color"), Word (lit "black"))]).
  set (font := [(Word (lit "fontname"), Word (lit "helvetica"))]).
  set (gr := SDefault (lit "graph") [(Word (lit "ranksep"), Word (lit "equally")); (Word (lit "splines"), Word (lit "polyline"))]).
  set (ed := SDefault (lit "edge") font).
  assert (F : forall ds, forallb (fun d => match d with SDefault _ _ => true | _ => false end) ds = true -> Forall decoration ds).
  { intros ds H. apply Forall_forall. intros d X. rewrite forallb_forall in H. specialize (H d X). destruct d; try discriminate. exact I. }
  destruct fl, q, p; eexists.
  - exists [node (looks "filled, rounded"%string ++ font); gr; ed]. split; [vm_compute; reflexivity|]. split; [apply F; reflexivity|]. intros rest l r P. do 3 (eapply D1; [reflexivity|eexists; reflexivity|cbn [length app]; lia| |cbn; tauto]). exact P.
  - exists [node (looks "filled, rounded"%string ++ font); ed]. split; [vm_compute; reflexivity|]. split; [apply F; reflexivity|]. intros rest l r P. do 2 (eapply D1; [reflexivity|eexists; reflexivity|cbn [length app]; lia| |cbn; tauto]). exact P.
  - exists [node (looks "filled"%string); gr]. split; [vm_compute; reflexivity|]. split; [apply F; reflexivity|]. intros rest l r P. do 2 (eapply D1; [reflexivity|eexists; reflexivity|cbn [length app]; lia| |cbn; tauto]). exact P.
  - exists [node (looks "filled"%string)]. split; [vm_compute; reflexivity|]. split; [apply F; reflexivity|]. intros rest l r P. do 1 (eapply D1; [reflexivity|eexists; reflexivity|cbn [length app]; lia| |cbn; tauto]). exact P.
  - exists [node (looks "rounded"%string ++ font); gr; ed]. split; [vm_compute; reflexivity|]. split; [apply F; reflexivity|]. intros rest l r P. do 3 (eapply D1; [reflexivity|eexists; reflexivity|cbn [length app]; lia| |cbn; tauto]). exact P.
  - exists [node (looks "rounded"%string ++ font); ed]. split; [vm_compute; reflexivity|]. split; [apply F; reflexivity|]. intros rest l r P. do 2 (eapply D1; [reflexivity|eexists; reflexivity|cbn [length app]; lia| |cbn; tauto]). exact P.
  - exists [node []; gr]. split; [vm_compute; reflexivity|]. split; [apply F; reflexivity|]. intros rest l r P. do 2 (eapply D1; [reflexivity|eexists; reflexivity|cbn [length app]; lia| |cbn; tauto]). exact P.
  - exists [node []]. split; [vm_compute; reflexivity|]. split; [apply F; reflexivity|]. intros rest l r P. do 1 (eapply D1; [reflexivity|eexists; reflexivity|cbn [length app]; lia| |cbn; tauto]). exact P.
Qed.
End Items.

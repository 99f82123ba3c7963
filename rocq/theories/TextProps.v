(** * TextProps: C151 (the layout of a text block is kept) *)
From Coq Require Import String List Bool Arith Lia ZArith.
From Verif Require Import GoBase GoSpec GoFacts InstanceSpec FactModel FactSpec FactProofs TextSpec TextProofs.
Import ListNotations.
Local Open Scope string_scope.

(** C151, of HTML in which no cell of one column is inside a cell of the same kind that spans several *)
Theorem C151_layout_partial :
  forall l, tidy [] l -> exists html, text_block (tokens l) = Ok html /\ drawn false l html.
Proof.
  intros l T. destruct (draw [] l T (TB "" 0 [] [])) as (s&D&E).
  - intros k [-> | ->] _; reflexivity.
  - cbn. lia.
  - exists s. split; [|exact D]. unfold text_block. rewrite E. reflexivity.
Qed.
Print Assumptions C151_layout_partial.

(** C151. Refuted: in a cell that spans two columns, the first cell of one column that ends also ends the second column. *)
Definition nested_table : list html :=
  [Element "table" [] [Element "tr" [] [Element "td" [("colspan", "2")] [Element "table" [] [Element "td" [] []]]]]].
Theorem C151_refuted :
  ~ (forall l, well_formed l -> exists html, text_block (tokens l) = Ok html /\ drawn false l html).
Proof.
  intro H. destruct (H nested_table) as (html&E&D); [repeat constructor|].
  vm_compute in E. injection E as <-.
  inversion D as [| | | |? ? ? ? ? ? D1 R1|? ? ? ? ? ? ? ? ? ? [X|X]|? ? ? ? ? ? ? ? ? X]; subst; try discriminate X; try congruence.
  inversion R1; subst.
  inversion D1 as [| | | | |? ? ? ? ? ? ? ? ? ? [X|X]|? ? ? o ? ? c ? r1 _ _ O2 D2 C2 R2]; subst; try discriminate X.
  inversion R2; subst. inversion O2 as [_ Y| |N]; subst; [|match goal with P : paragraph _ |- _ => cbn in P; intuition discriminate end|congruence].
  inversion C2 as [_ Y|N]; subst; [|congruence].
  inversion D2 as [| | | | |? k ? n o3 ? s3 c3 ? r3 K SP O3 D3 C3 R3|? ? ? ? ? ? ? ? ? X NC]; subst; [|exfalso; apply NC; now right].
  inversion R3; subst.
  apply spans_span in SP. vm_compute in SP. subst n.
  pose proof (copies_srep _ _ _ O3 2 eq_refl) as O4. subst o3.
  pose proof (copies_srep _ _ _ C3 2 eq_refl) as C4. subst c3.
  inversion D3 as [| | | |? ? ? ? ? ? D4 R4|? ? ? ? ? ? ? ? ? ? [X|X]|? ? ? ? ? ? ? ? ? X]; subst; try discriminate X; try congruence.
  inversion R4; subst.
  inversion D4 as [| | | | |? k' ? n o5 ? s5 c5 ? r5 K' SP O5 D5 C5 R5|? ? ? ? ? ? ? ? ? X NC]; subst; [|exfalso; apply NC; now right].
  inversion R5; subst. inversion D5; subst.
  apply spans_span in SP. vm_compute in SP. subst n.
  pose proof (copies_srep _ _ _ O5 1 eq_refl) as O6. subst o5.
  pose proof (copies_srep _ _ _ C5 1 eq_refl) as C6. subst c5.
  repeat match goal with X : _ = _ |- _ => vm_compute in X; discriminate X end.
Qed.
Print Assumptions C151_refuted.

(** a heading, a paragraph that goes on after a line break, and a table with a cell that spans two columns and a paragraph in a
    cell *)
Definition sample_block : list html :=
  [Element "h1" [] [Text " Note 1 "]; Element "p" [("class", "x")] [Text "Cash"; Lone (HSelf "br" []); Element "b" [] [Text "and"]; Text " more"];
   Element "table" [] [Element "tr" [] [Element "td" [("colspan", "2")] [Element "p" [] [Text "Total"]]; Element "td" [] [Text "7"]]];
   Element "div" [] []].
Example C151_example : tidy [] sample_block /\
  text_block (tokens sample_block) = Ok ("<br /><br />Note 1 <br /><br />Cash and more <table><tr><td><td>Total </td></td><td>7 </td></tr></table><br /><br />").
Proof.
  assert (S1 : spans [] 1) by (apply (span_spec [])).
  assert (S2 : spans [("colspan", "2")] 2) by (apply (span_spec [("colspan", "2")])).
  assert (N : forall n, n <> "th" -> n <> "td" -> ~ cell n) by (intros n A B [X|X]; auto).
  split; [|vm_compute; reflexivity].
  apply td_element; [apply N; discriminate|repeat constructor|].
  apply td_element; [apply N; discriminate| |].
  { apply td_text, td_lone; [split; [discriminate|apply N; discriminate]|].
    apply td_element; [apply N; discriminate|repeat constructor|repeat constructor]. }
  apply td_element; [apply N; discriminate| |apply td_element; [apply N; discriminate|constructor|constructor]].
  apply td_element; [apply N; discriminate| |constructor].
  apply (td_wide _ _ _ 2); [now right|exact S2|lia| |].
  { apply td_element; [apply N; discriminate|repeat constructor|constructor]. }
  apply td_one; [now right|exact S1|intros []|repeat constructor|constructor].
Qed.

(** XML element trees as xml.etree.ElementTree gives them to the modelled code:
    tag, text (None when there is none) and children.  Attributes, tails and
    comments are never read by that code and are left out. *)
From Coq Require Import List String.
Import ListNotations.

Inductive xml := Elem (x_tag : string) (x_text : option string) (x_children : list xml).
Definition tag (e : xml) : string := let 'Elem t _ _ := e in t.
Definition text (e : xml) : option string := let 'Elem _ s _ := e in s.
Definition children (e : xml) : list xml := let 'Elem _ _ c := e in c.

(** ET.Element(t) whose text is set to [s] (ET.SubElement without children). *)
Definition leaf (t s : string) : xml := Elem t (Some s) [].

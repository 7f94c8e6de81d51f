(** Model of the accessors [Type] and [Name] of the nodes of packages aitch and
    html.  ([NImper] here is the node of [Imperative]; a user-defined node has
    accessors of its own.) *)
From Verif Require Import Bytes IO Nodes.

(** aitch.go 29-43; the last five are not exported. *)
Inductive node_type :=
| ElementNode | AttributeNode | TextNode | CommentNode | PINode | DocumentNode | FragmentNode
| CollectionNode | ConditionalNode | DynamicNode | ImperativeNode | IteratorNode.

Section Accessors.
Context {U : Type}.

(** [Type()]: attribute.go 26-28, 70-72, 123-125; element.go 76-78, 142-144;
    text.go 28-30; comment.go 23-25; pi.go 26-28; fragment.go 31-33;
    collection.go 22-24, 56-58; conditional.go 54-56; imperative.go 45-47;
    iterate.go 104-106, 169-171; html/document.go 23-25. *)
Definition type_of (n : node U) : node_type :=
  match n with
  | NAttr _ => AttributeNode
  | NElement _ _ _ _ _ | NVoid _ _ _ _ => ElementNode
  | NText _ => TextNode
  | NComment _ => CommentNode
  | NPI _ _ => PINode
  | NFragment _ => FragmentNode
  | NCollection _ => CollectionNode
  | NConditional _ _ _ => ConditionalNode
  | NCollect _ => DynamicNode
  | NImper _ => ImperativeNode
  | NIter _ _ | NYield _ _ => IteratorNode
  | NDocument _ _ => DocumentNode
  end.

(** [Name()]: the lines after those. *)
Definition name_of (n : node U) : bytes :=
  match n with
  | NAttr a => attr_name a
  | NElement name _ _ _ _ | NVoid name _ _ _ => name
  | NText _ => B "#text"
  | NComment _ => B "#comment"
  | NPI name _ => B "!" ++ name
  | NFragment _ => B "#fragment"
  | NCollection _ => B "#collection"
  | NConditional _ _ _ => B "#conditional"
  | NCollect _ => B "#collector"
  | NImper _ => B "!imperative"
  | NIter _ _ => B "!iterator"
  | NYield _ _ => B "!yield_iterator"
  | NDocument _ _ => B "#document"
  end.

End Accessors.

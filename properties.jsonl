{"id": "C01", "title": "String content is inert markup", "statement": "Whatever Go string is given as content (Text, element content, attribute value, Comment, ctx.Data value read through DynamicValueKey, ImperativeContext.WriteString), the bytes written for it contain no '<', '>', '\"', \"'\" or NUL byte, and every '&' written is the first byte of one of the five entities &quot; &apos; &amp; &lt; &gt;.", "quantifier": "every byte string, of any length", "why_tests_cant": "the set of strings is infinite and the escaper has a fast path, a chunked slow path and index arithmetic; tests sample a few literals", "anchors": ["value.go:htmlEscapeString", "value.go:valueToBytes", "imperative.go:WriteString"]}
{"id": "C02", "title": "Escaping loses nothing but NUL", "statement": "Decoding the five entities in the bytes written for a string gives back exactly that string with its NUL bytes removed; so two NUL-free strings that render alike are equal, and escaping a concatenation is the concatenation of the escapes.", "quantifier": "every byte string and every way of cutting it in two", "why_tests_cant": "a round trip over all strings is not enumerable", "anchors": ["value.go:htmlEscapeString"]}
{"id": "C03", "title": "Every supported scalar renders as documented", "statement": "bool renders true/false, []byte verbatim, string escaped, every signed and unsigned integer as the canonical decimal numeral that reads back to the same number, fmt.Stringer as its String() verbatim, func() any as its result; nil and any other type render as nothing.", "quantifier": "every Go value of every dynamic type, any nesting of func() any", "why_tests_cant": "all integers and all nestings", "anchors": ["value.go:valueToBytes"]}
{"id": "C04", "title": "Dynamic keys render like the value they name", "statement": "DynamicValueKey(k) with ctx.Data[k]=v renders at that moment exactly the bytes that passing v statically would; DynamicValueKey(\".\") does so for ctx.Cargo; an absent key renders nothing; the lookup is made when the node is rendered, so it sees what earlier callbacks stored.", "quantifier": "every key, data map, cargo, value and user state", "why_tests_cant": "quantifies over all contexts and mutation histories", "anchors": ["value.go:newValue", "value.go:DynamicValueKey", "context/context.go:Context"]}
{"id": "C05", "title": "Element shape and document order", "statement": "On a writer that accepts everything an element writes '<' name, its attributes, '>', its non-attribute contents in the order given, then '</' name '>'; user callbacks run in that same order, each sees the effects of the earlier ones, and nothing else is written.", "quantifier": "every element, content list, context and stateful callback", "why_tests_cant": "all trees and all callback histories", "anchors": ["element.go:element.Render", "element.go:NewElement", "element.go:contentsToNodes"]}
{"id": "C06", "title": "No markup injection: output parses back to the template", "statement": "For a template built from elements, void elements, attributes, boolean attributes and comments with valid names and string/number/bool values, an HTML tokenizer run on the output yields exactly the template's tags, attribute names and (decoded) attribute values and text, whatever the strings contain; the tags are properly nested.", "quantifier": "every template of any size and depth, every string content", "why_tests_cant": "unbounded trees times unbounded strings", "anchors": ["element.go:element.Render", "attribute.go:attribute.Render", "text.go:text.Render", "comment.go:comment.Render", "value.go:htmlEscapeString"]}
{"id": "C07", "title": "Void elements have no content and no end tag", "statement": "A void element writes '<' name attributes '>' and nothing else, whatever non-attribute contents it is given; attributes found in nested collections and conditionals are still honoured. Element(name) makes a void element exactly when name is one of the 14 void names.", "quantifier": "every name, content list and context", "why_tests_cant": "all content lists", "anchors": ["element.go:voidElement.Render", "element.go:NewVoidElement", "element.go:Element", "element.go:voidElementNames"]}
{"id": "C08", "title": "Names are validated exactly", "statement": "Element, VoidElement, Attribute, BooleanAttribute and DelimitedAttribute accept a name iff it is a letter followed by letters, digits, '.', '_', '-' or ':'; otherwise they return nil, or panic when PanicOnInvalidName is set. An accepted name contains no space, quote, '=', '/', '<' or '>'.", "quantifier": "every byte string as a name", "why_tests_cant": "the language of names is infinite", "anchors": ["aitch.go:htmlTagRegex", "element.go:Element", "element.go:VoidElement", "attribute.go:Attribute", "attribute.go:BooleanAttribute", "attribute.go:DelimitedAttribute"]}
{"id": "C09", "title": "No attribute name is written twice in a tag", "statement": "In the opening tag of any element or void element, each attribute name is written exactly once, however often and wherever (directly, in collections, in conditionals) it was declared, whatever conditions hold and whatever order Go iterates its maps in; the names written are the static ones plus those of active conditional attributes.", "quantifier": "every argument list, every truth assignment of conditions, every map iteration order", "why_tests_cant": "map order is random and declaration lists unbounded", "anchors": ["element.go:renderAttributes", "element.go:addAttributes", "conditional.go:conditionalAttributes.evaluate"]}
{"id": "C10", "title": "Repeated static attributes: last wins or merge", "statement": "For the unconditional attributes of an element (including those inside nested collections), a name's rendered attribute is: if all declarations of the name are delimited, one attribute with all their values in declaration order joined by the first one's delimiter; otherwise the last non-delimited declaration resets it and delimited ones after that replace once and then merge. Attributes appear in the order in which their names were first declared.", "quantifier": "every list of attribute declarations", "why_tests_cant": "unbounded lists with repetitions", "anchors": ["element.go:addAttributes", "collection.go:collection", "README.md"]}
{"id": "C11", "title": "Where attributes stand among the content does not matter", "statement": "Moving attributes before, after or between the content arguments of an element, keeping the attributes' relative order and the contents' relative order, does not change what the element renders.", "quantifier": "every interleaving of every attribute list with every content list", "why_tests_cant": "all interleavings", "anchors": ["element.go:attributesAndContents", "README.md"]}
{"id": "C12", "title": "Delimited values are joined by single delimiters", "statement": "A delimited attribute's value is written as its values in order with one delimiter between consecutive non-empty values; empty values add no delimiter of their own, except that a non-empty run followed only by empty values is followed by one trailing delimiter.", "quantifier": "every list of values and delimiter", "why_tests_cant": "every pattern of empty and non-empty values", "anchors": ["attribute.go:delimitedAttribute.Render", "value.go:Value.render"]}
{"id": "C13", "title": "Conditional attributes resolve independently of map order", "statement": "When conditional attributes are active, each attribute rendered is a function of the declarations and the truth values only: a delimited static attribute gets the active values appended, a non-delimited one is replaced by the last active one, a name with no static attribute is merged or last-wins among the active ones. Different map iteration orders only permute the attributes.", "quantifier": "every set of conditional attributes, every truth assignment, every iteration order", "why_tests_cant": "random map order cannot be enumerated by tests", "anchors": ["element.go:renderAttributes", "conditional.go:evaluate"]}
{"id": "C14", "title": "A nested conditional attribute needs all its enclosing conditions", "statement": "An attribute inside nested Conditional/When nodes is written only if every enclosing condition holds, and is governed by no other condition.", "quantifier": "every nesting depth and every number of siblings", "why_tests_cant": "the failure needs a particular depth and sibling pattern (slice capacity growth), which no finite set of examples rules out", "anchors": ["element.go:attributesAndContents", "conditional.go:conditionalAttribute.evaluate"]}
{"id": "C15", "title": "Conditional content is gated by its condition", "statement": "A Conditional writes its non-attribute contents in order exactly when its function returns true for the rendering context, and nothing otherwise; nested conditionals act as the conjunction; Conditional(nil, ...) is a Collection.", "quantifier": "every condition, context, contents and nesting", "why_tests_cant": "all trees and contexts", "anchors": ["conditional.go:conditional.Render", "conditional.go:Conditional"]}
{"id": "C16", "title": "When and its negation are exact complements", "statement": "When(k) holds iff k is in ctx.Data and is not the bool false; When(\"!\"+k) holds exactly when When(k) does not, for every data map and every key k.", "quantifier": "every key and data map", "why_tests_cant": "all maps and values", "anchors": ["conditional.go:When"]}
{"id": "C17", "title": "Collections are transparent", "statement": "Replacing a Collection argument of an element by its members, or the converse, at any nesting depth, does not change the rendering; likewise for a collection inside a collection.", "quantifier": "every split of every content list, any nesting", "why_tests_cant": "all groupings", "anchors": ["collection.go:Collection", "collection.go:Render", "element.go:attributesAndContents"]}
{"id": "C18", "title": "nil arguments are harmless", "statement": "Passing nil (for example the nil that Attribute returns for an invalid name) to an element, Collection, Text or any values list has no effect on the output; constructors that take nodes tolerate nil.", "quantifier": "every position of nil in every argument list", "why_tests_cant": "all argument lists and every constructor", "anchors": ["element.go:attributesAndContents", "collection.go:Collection", "conditional.go:Conditional", "iterate.go:Iterate", "value.go:newValues"]}
{"id": "C19", "title": "A healthy writer gives complete output and no error", "statement": "If the writer accepts every write and no Imperative function returns an error, Render returns nil, leaves ctx.Error nil, and the bytes written are the complete rendering of the node.", "quantifier": "every node, context and user state", "why_tests_cant": "all trees", "anchors": ["context/context.go:Context.Write", "element.go:Render", "html/document.go:Render"]}
{"id": "C20", "title": "A writer that dies leaves a prefix of the output", "statement": "If the writer stops accepting bytes at an arbitrary point (any byte offset, possibly in the middle of a write) and never recovers, what it received is exactly the first so many bytes of the complete output; rendering still terminates.", "quantifier": "every node, context and every crash offset", "why_tests_cant": "every crash point of every document", "anchors": ["context/context.go:Context.Write", "value.go:Value.render", "element.go:Render", "iterate.go:Render", "imperative.go"]}
{"id": "C21", "title": "A write failure is reported", "statement": "If the writer dies during rendering, Render returns a non-nil error and ctx.Error is non-nil afterwards.", "quantifier": "every node and crash point", "why_tests_cant": "every crash point of every document", "anchors": ["context/context.go:Context.Error", "imperative.go:imperative.Render", "element.go:Render", "iterate.go:Render"]}
{"id": "C22", "title": "ctx.Error holds the first error", "statement": "After rendering, ctx.Error is the first error the writer returned during it (as documented on Context.Error), and Render returns it.", "quantifier": "every node and every writer, including ones that fail transiently", "why_tests_cant": "every failure pattern", "anchors": ["context/context.go:Context", "value.go:Value.render", "element.go:Render"]}
{"id": "C23", "title": "Nothing is written after a failure", "statement": "Once a write has failed, no further byte of the document is sent to the writer.", "quantifier": "every node and every failure pattern", "why_tests_cant": "every failure pattern", "anchors": ["context/context.go:Context.Write", "value.go:Value.render"]}
{"id": "C24", "title": "Iterate renders its nodes once per item, in order, with the item in scope", "statement": "Iterate renders its non-attribute nodes for each item in order, with Cargo the item, Data the item if it is a map[string]any and the enclosing Data otherwise, and Parent the enclosing context; the enclosing context's Data and Cargo are the same before and after.", "quantifier": "every item list, node list, nesting and context", "why_tests_cant": "all lists and contexts", "anchors": ["iterate.go:Iterate", "iterate.go:iterator.Render"]}
{"id": "C25", "title": "IterateKey selects the slice under the key", "statement": "IterateKey(k) iterates exactly the elements of ctx.Data[k], in order, when it is a []any or any other slice; when the key is absent or holds a non-slice it writes nothing.", "quantifier": "every key, data map and element list", "why_tests_cant": "all data", "anchors": ["iterate.go:IterateKey"]}
{"id": "C26", "title": "IterateYield shows each item only its own data", "statement": "With IterateYield each yielded item is rendered with Cargo the item and Data the item if it is a map[string]any; an item that is not a map does not see data of an earlier item, and sees the enclosing data as with Iterate.", "quantifier": "every sequence of yielded items", "why_tests_cant": "depends on the history of yielded items", "anchors": ["iterate.go:IterateYield", "iterate.go:yieldIterator.Render"]}
{"id": "C27", "title": "Iteration stops at the first failing item", "statement": "Iterate stops at the first node that returns an error, records that error in the enclosing context, and renders no later item; an iterator entered with ctx.Error already set writes nothing and returns that error.", "quantifier": "every item list and writer", "why_tests_cant": "every crash point", "anchors": ["iterate.go:iterator.Render", "iterate.go:yieldIterator.Render"]}
{"id": "C28", "title": "Imperative tags nest properly", "statement": "For any sequence of ImperativeContext operations, End closes the most recently started unclosed non-void element, End with nothing open writes nothing, EndAll closes everything in reverse order; so any operation sequence whose last operation is EndAll writes properly nested tags.", "quantifier": "every operation sequence", "why_tests_cant": "all operation sequences", "anchors": ["imperative.go:Start", "imperative.go:End", "imperative.go:EndAll"]}
{"id": "C29", "title": "Imperative Start writes the same tag as the declarative API", "statement": "Start(name, isVoid, attrs...) writes the same opening tag that NewElement(name, attrs...) renders.", "quantifier": "every attribute list", "why_tests_cant": "all attribute lists and repetition patterns", "anchors": ["imperative.go:Start", "element.go:addAttributes", "attribute.go:delimitedAttribute.Render"]}
{"id": "C30", "title": "Attribute nodes and nils are ignored where content is expected", "statement": "WriteNodes, ContentCollect, Collection and Iterate write nothing for attribute nodes (and the first three ignore nil nodes); everything else is rendered in order; WriteString writes exactly what Text of the same string does and WriteRaw exactly its bytes.", "quantifier": "every node list", "why_tests_cant": "all node lists", "anchors": ["imperative.go:WriteNodes", "imperative.go:WriteRaw", "collection.go:contentCollector.Render", "collection.go:collection.Render", "iterate.go:Iterate"]}
{"id": "C31", "title": "Building an element leaves other nodes alone", "statement": "Passing a node to a constructor does not change what that node, or any other node built before, renders; attributes may be shared between elements ('reuse templates safely').", "quantifier": "every sequence of constructions with any sharing of nodes", "why_tests_cant": "every construction history with aliasing", "anchors": ["element.go:addAttributes", "README.md"]}
{"id": "C32", "title": "Rendering is repeatable and read-only", "statement": "Rendering a template does not change it: rendering it again with the same context data and callbacks that do not change state gives the same result, any number of times and after any number of renders of other templates.", "quantifier": "every template and every history of renders", "why_tests_cant": "all histories", "anchors": ["element.go:renderAttributes", "README.md"]}
{"id": "C33", "title": "Concurrent renders do not interfere", "statement": "Any number of concurrent Render or Execute calls on shared templates, each with its own context and writer and with callbacks that do not change shared state, each write exactly what they would write alone, for every interleaving of their steps.", "quantifier": "every number of goroutines and every schedule", "why_tests_cant": "schedules cannot be enumerated", "anchors": ["template.go:Execute", "element.go:renderAttributes"]}
{"id": "C34", "title": "css unit helpers leave their arguments alone", "statement": "css.Px(values...) and the other unit functions render their arguments followed by the unit, and do not modify the slice the caller passed.", "quantifier": "every argument slice, of any length and capacity", "why_tests_cant": "depends on the caller's slice capacity", "anchors": ["css/units.go"]}
{"id": "C35", "title": "Prefixed attribute names are independent of each other", "statement": "html.Aria(n), html.Data(n) and htmx.On(n) name their attribute by the prefix followed by n, and later calls with other names do not change earlier attributes.", "quantifier": "every sequence of calls with any names", "why_tests_cant": "depends on the capacity of the shared prefix slice and on call history", "anchors": ["html/attributes.go:Aria", "html/attributes.go:Data", "htmx/attributes.go:On"]}
{"id": "C36", "title": "htmx headers are deterministic", "statement": "Headers/HeadersJS with HeadersMap values write every key exactly once, in ascending order, with the value from the last map that has the key, whatever order Go iterates the maps in.", "quantifier": "every list of maps and every map iteration order", "why_tests_cant": "map order is random", "anchors": ["htmx/attributes.go:Headers", "htmx/attributes.go:HeadersJS", "htmx/attributes.go:HeadersMap.serialize"]}
{"id": "C37", "title": "htmx headers reject mixtures and cannot leave the attribute", "statement": "Headers panics iff it is given both HeadersMap and other values; with string, number and bool values the header keys and values cannot end the attribute value early.", "quantifier": "every argument list, every key and value", "why_tests_cant": "all argument lists", "anchors": ["htmx/attributes.go:Headers", "htmx/attributes.go:serialize"]}
{"id": "C38", "title": "Generated string literals denote the original text", "statement": "The text that GenerateCode puts between double quotes is a valid Go string literal body that denotes exactly the original text, attribute value or comment.", "quantifier": "every string", "why_tests_cant": "all strings; depends on the order of four successive replacements", "anchors": ["html/generator.go:escape", "svg/generator.go:escape"]}
{"id": "C39", "title": "Generated code is balanced", "statement": "For HTML whose start and end tags match, GenerateCode emits code whose parentheses balance and whose call nesting is the document's nesting, with indentation equal to depth.", "quantifier": "every token stream", "why_tests_cant": "all documents", "anchors": ["html/generator.go:GenerateCode", "svg/generator.go:GenerateCode"]}
{"id": "C40", "title": "GenerateCode reports write errors", "statement": "If any write to the output fails, GenerateCode returns a non-nil error.", "quantifier": "every token stream and failure pattern", "why_tests_cant": "every failure point", "anchors": ["html/generator.go:write", "html/generator.go:writeElementStart"]}
{"id": "C41", "title": "The element functions and tables agree", "statement": "Every html element function produces the tag the generator maps to it, as a void element exactly when its name is an HTML void name; every key of the generator tables is reachable.", "quantifier": "every function and every table entry", "why_tests_cant": "a table-wide statement over several hundred entries in several files", "anchors": ["html/elements.go", "html/generator.go:mappings", "svg/generator.go:mappings", "element.go:voidElementNames"]}
{"id": "C42", "title": "context.Get prefers Data, then Cargo, and is type-safe", "statement": "Get[T] returns ctx.Data[key] when present with type T; otherwise the entry or field of that name of Cargo (a string-keyed map or a struct, or pointer to one) when it has type T; otherwise the zero value and false. MustGet returns the same value and panics exactly when Get returns false.", "quantifier": "every context, key and type", "why_tests_cant": "all contexts and types", "anchors": ["context/context.go:Get", "context/context.go:MustGet"]}
{"id": "C43", "title": "context.Get does not panic", "statement": "Get[T] returns false rather than panicking for any context and key.", "quantifier": "every context, cargo shape and key", "why_tests_cant": "all cargo types", "anchors": ["context/context.go:Get"]}
{"id": "C44", "title": "Template execution splices nodes in place", "statement": "Executing a template writes its literal text and, at each token, the bytes the mapped node renders for the execution's own context, in order, and nothing else if the nodes whose tokens stand inside a tag are attributes (after any other node there, html/template puts its mark); it stops at the first node that fails; executions share no context.", "quantifier": "every template, node map, data and writer", "why_tests_cant": "all templates and failure points", "anchors": ["template.go:NewTemplate", "template.go:Execute", "template.go:contextFunc"]}
{"id": "C45", "title": "Document shape", "statement": "Document(lang, head, body) writes the doctype line, then one html element with the lang attribute iff lang is not nil, a head element iff head is non-empty, and a body element.", "quantifier": "every lang value, head list and body list", "why_tests_cant": "all argument lists", "anchors": ["html/document.go:Document", "html/document.go:Render", "pi.go:DocType"]}
{"id": "C46", "title": "Nbsps writes n non-breaking spaces", "statement": "Nbsps(n) is exactly n copies of &nbsp; (nothing for n <= 0).", "quantifier": "every n", "why_tests_cant": "all n", "anchors": ["text.go:Nbsps", "text.go:Nbsp"]}
{"id": "C47", "title": "css properties merge into one style attribute", "statement": "Any mixture of html.Style and css property calls on one element gives one style attribute whose declarations are each 'name:values' in call order separated by '; '.", "quantifier": "every list of declarations", "why_tests_cant": "unbounded lists", "anchors": ["css/properties.go:styleAttribute", "html/attributes.go:Style"]}
{"id": "C48", "title": "String content cannot end a comment or attribute early", "statement": "In the output of Comment(strings...) the first '-->' is the one that ends it; in an attribute with string values the first '\"' after the opening one is the closing one.", "quantifier": "every string content", "why_tests_cant": "all strings", "anchors": ["comment.go:comment.Render", "attribute.go:attribute.Render"]}
{"id": "C49", "title": "Value lists compose by concatenation", "statement": "Text, Fragment, attribute and comment values render as the concatenation of their parts; NewConcatValue and NewValue group without changing the bytes; a text, comment, PI, fragment or attribute node used as a value contributes its values; elements and other nodes used as values contribute nothing.", "quantifier": "every list and nesting of values", "why_tests_cant": "all nestings", "anchors": ["value.go:newValue", "value.go:newValues", "value.go:NewValue", "value.go:NewConcatValue", "text.go", "fragment.go"]}
{"id": "C50", "title": "A context in error writes nothing", "statement": "Rendering with a context whose Error is already set writes nothing and returns that error.", "quantifier": "every node and context", "why_tests_cant": "all trees", "anchors": ["context/context.go:Write", "value.go:Value.render", "iterate.go:Render"]}
{"id": "C51", "title": "The last declaration wins, conditional or not", "statement": "Among the declarations of a non-delimited attribute on one element whose conditions hold (an unconditional one always holds), the one written last in the source is the one rendered.", "quantifier": "every mixture of static and conditional declarations and nesting", "why_tests_cant": "all orders and nestings", "anchors": ["element.go:attributesAndContents", "element.go:renderAttributes", "conditional.go:Conditional"]}
{"id": "C52", "title": "Fragments, raw bytes and dynamic functions are verbatim", "statement": "[]byte values, DynamicValueFunc results and Stringer results are written byte for byte, never escaped or altered.", "quantifier": "every byte string and callback", "why_tests_cant": "all byte strings", "anchors": ["value.go:valueToBytes", "value.go:Value.render"]}
{"id": "C53", "title": "Generated code rebuilds the document", "statement": "Running the code generated from a document builds a template whose output, read as HTML, has the document's tags, attributes, text, comments and doctype, in order.", "quantifier": "every document", "why_tests_cant": "all documents", "anchors": ["html/generator.go:GenerateCode", "svg/generator.go:GenerateCode", "html/elements.go", "html/attributes.go", "svg/elements.go", "svg/attributes.go", "element.go:Element", "attribute.go:Attribute"]}
{"id": "C54", "title": "The error an Imperative function returns is reported", "statement": "If the function given to Imperative returns an error, rendering a template that contains the node returns that error; a Collection or conditional renders nothing after it; and returning it changes neither what is written nor ctx.Error by itself.", "quantifier": "every function, template, writer and context", "why_tests_cant": "all programs of the user's function and all surrounding templates", "anchors": ["imperative.go:imperative.Render", "collection.go:collection.Render", "conditional.go:conditional.Render", "element.go:element.Render"]}
{"id": "C55", "title": "htmx variables keep their names and order", "statement": "htmx.Vars with htmx.Var(name, value) arguments renders hx-vars as the pairs 'name: value' with the name escaped, separated by comma and space, none left out even if its value shows nothing; several Vars calls in one element give one attribute with all pairs in order.", "quantifier": "every list of calls, names and values, static or dynamic", "why_tests_cant": "all lists of pairs and all values", "anchors": ["htmx/attributes.go:Vars", "htmx/attributes.go:Var", "value.go:NewConcatValue", "attribute.go:delimitedAttribute.Render"]}
{"id": "C56", "title": "A false conditional is as if it were not there", "statement": "An element that contains a conditional whose condition is false, at any depth of groups and conditionals, renders exactly as the element without that conditional; the attributes and the contents of a conditional appear together.", "quantifier": "every element content and nesting, every order of map iteration", "why_tests_cant": "all trees", "anchors": ["element.go:attributesAndContents", "element.go:renderAttributes", "conditional.go:conditional.Render", "conditional.go:Conditional"]}
{"id": "C57", "title": "Header maps render as JSON", "statement": "htmx.Headers with HeadersMap arguments renders hx-headers so that the value a browser reads is a JSON object, as its documentation says.", "quantifier": "every list of header maps, keys and values", "why_tests_cant": "all keys and values", "anchors": ["htmx/attributes.go:Headers", "htmx/attributes.go:HeadersMap.serialize"]}
{"id": "C58", "title": "Components can be factored out", "statement": "Moving a part of a template into a type of one's own, whose Render method renders that part, does not change what is written, which callbacks run, or which error is returned.", "quantifier": "all templates, any parts of them, every writer, context and state", "why_tests_cant": "user-defined nodes pass through type switches in element construction, conditionals, iterators, collectors and imperative functions; tests try a few shapes", "anchors": ["aitch.go:Node", "element.go:attributesAndContents", "element.go:contentsToNodes", "collection.go:Collection", "conditional.go:Conditional", "iterate.go:Iterate", "imperative.go:imperativeContext.WriteNodes"]}
{"id": "C59", "title": "Functions and constants say what they write", "statement": "Every element and attribute function of html, svg and htmx writes the tag or attribute name it is named after (Para, a second name of P, aside), no two other functions of a package write the same one, every css and htmx string constant renders as itself, and htmx.AttrX is the attribute name that the function X writes.", "quantifier": "all functions and constants, any arguments and context", "why_tests_cant": "800 declarations of the same shape, where one pasted name goes unnoticed; the tests of the packages check a part of them, with one argument", "anchors": ["html/elements.go", "html/attributes.go", "svg/elements.go", "svg/attributes.go", "htmx/attributes.go", "htmx/constants.go", "css/constants.go"]}
{"id": "C60", "title": "Text stays whole", "statement": "If the names, strings, byte slices and function results that a template is made of are valid UTF-8, as is the data it is rendered with, then every single call of Write is given valid UTF-8 (no character is split between calls) and so is the page; likewise no NUL byte is written if none is put in.", "quantifier": "every template, context, data, writer and failure of the writer, every map order", "why_tests_cant": "all strings and all templates; a byte-wise escaping loop or a split write corrupts only characters beyond ASCII in some positions", "anchors": ["value.go:htmlEscapeString", "value.go:valueToBytes", "value.go:Value.render", "context.go:Context.Write", "imperative.go:imperativeContext.WriteString"]}
{"id": "C61", "title": "NewTemplate reports bad input as an error", "statement": "NewTemplate returns an error, and does not panic, whatever the text and the node map; it succeeds exactly if every token has a node that is not nil. MustNewTemplate returns the same template and panics exactly when NewTemplate does not return one.", "quantifier": "every list of texts and tokens, every node map", "why_tests_cant": "all keys of a node map, including ones no token can name", "anchors": ["template.go:NewTemplate", "template.go:MustNewTemplate", "template.go:contextFuncMap"]}
{"id": "C62", "title": "Nodes report the name they write", "statement": "Node.Name of an element, attribute or processing instruction is the name it begins with when rendered, and Node.Type tells its kind, for all constructors and all functions of html, svg, css and htmx; every other node reports a name that no element or attribute made by a checking constructor can have.", "quantifier": "every node, context, state and map order; every function of the packages", "why_tests_cant": "all nodes; the accessors are consulted by the constructors (merging of attributes, sorting attributes from contents) and by users", "anchors": ["attribute.go:Name", "element.go:Name", "pi.go:Name", "aitch.go:NodeType", "conditional.go:Type", "collection.go:Type", "iterate.go:Type", "html/document.go:Type"]}
{"id": "C63", "title": "Rendering leaves contexts alone", "statement": "Render assigns no field of any context other than Error of the context it was given: after rendering, Data, Cargo and Parent of every context are what they were (unless a callback assigned them), however rendering ends, and the contexts of items are made anew.", "quantifier": "every template, writer, heap of contexts and state, callbacks that only read contexts or store errors in them", "why_tests_cant": "pointers: contexts are shared between the renderer, callbacks and enclosing iterations, and a test looks at few of them", "anchors": ["context/context.go:Context", "iterate.go:iterator.Render", "iterate.go:yieldIterator.Render", "value.go:Value.render", "element.go:Render"]}
{"id": "C64", "title": "An item's context starts afresh", "statement": "What the nodes rendered for one item of an iteration assign to Data and Cargo of their context is gone for the next item: the rendering is the same without the assignment.", "quantifier": "every list of items, nodes and callbacks (which may assign anything), writer and state", "why_tests_cant": "one context object is used for all items; a leak shows only with callbacks that assign its fields", "anchors": ["iterate.go:iterator.Render", "iterate.go:yieldIterator.Render"]}
{"id": "C65", "title": "An error stored in a context is reported", "statement": "If a user function stores an error in ctx.Error while rendering, Render returns a non-nil error.", "quantifier": "every template, every function that may store errors, every writer", "why_tests_cant": "many assignments to ctx.Error, some unconditional, compete; tests store none", "anchors": ["context/context.go:Context.Write", "value.go:Value.render", "iterate.go:iterator.Render", "conditional.go:conditional.Render", "collection.go:collector.Render", "element.go:Render"]}
{"id": "C66", "title": "A user-defined attribute stands for a library attribute", "statement": "An attribute of a user-defined type (a Node whose Type is AttributeNode) that writes what a library attribute of the same name writes can take its place anywhere, in elements and in Start, without changing what is written.", "quantifier": "every program of the Render method, all declarations of the tag, conditions, writers and map orders", "why_tests_cant": "type switches on the library's own types in four places; no test has an attribute of another type", "anchors": ["aitch.go:Node", "element.go:renderAttributes", "element.go:addAttributes", "imperative.go:imperativeContext.Start"]}
{"id": "C67", "title": "User-defined attributes obey the rules of a tag", "statement": "With attributes of user-defined types among the declarations of an element, the tag still shows each declared name exactly once; the conditions are asked first, and then exactly the attribute that won each name is rendered, once: an attribute that lost its name to another is not rendered at all.", "quantifier": "all declarations, conditions, Render programs, writers, states and map orders", "why_tests_cant": "all mixtures of declarations", "anchors": ["aitch.go:Node", "element.go:renderAttributes", "element.go:addAttributes", "conditional.go:conditionalAttributes.evaluate"]}
{"id": "C68", "title": "Line breaks are seen as given", "statement": "A reader that follows the HTML standard (normalising newlines in the input, tokenizing, and ignoring a newline at the start of pre, listing and textarea) sees the attribute values, text and tags of a template exactly as they were given, line breaks included; for any template with inert values the tags it sees are properly nested.", "quantifier": "every template given as plain data with all strings; for nesting, every template, state and map order", "why_tests_cant": "all combinations of CR and LF within and across values", "anchors": ["value.go:htmlEscapeString", "text.go:text.Render", "attribute.go:attribute.Render", "comment.go:comment.Render"]}
{"id": "C69", "title": "Rendering returns and does not panic", "statement": "Render of every node returns: whatever the template, the context, the writer and the results of callbacks, it runs into no nil pointer, no index out of range, no failed type assertion and no endless loop.", "quantifier": "every node in any heap, every context, writer, map order and behaviour of callbacks (which themselves return)", "why_tests_cant": "all heaps and all states in which an index or pointer is used", "anchors": ["element.go:renderAttributes", "imperative.go:imperativeContext.Start", "imperative.go:imperativeContext.End", "iterate.go:iterator.Render", "value.go:Value.render", "html/document.go:Render"]}
{"id": "C70", "title": "Rendering changes nothing in memory but ctx.Error", "statement": "After Render, every struct, array and map that existed before holds what it held, except that field Error of the context given to Render may differ; so nothing is appended into the arrays of the template, and rendering again renders the same template.", "quantifier": "every node in any heap, every context, writer, map order and behaviour of callbacks", "why_tests_cant": "aliasing of slices and pointers: append may write into a shared array", "anchors": ["element.go:renderAttributes", "conditional.go:conditionalAttributes.evaluate", "imperative.go:imperativeContext.Start", "iterate.go:iterator.Render", "value.go:Value.render", "context/context.go:Context.Write"]}
{"id": "C71", "title": "The source writes the reference page", "statement": "The Render methods as written in the source, run on the node of any template, make the calls of Write and of user code that the specification of the node says, with the same results: on a writer that accepts everything the page is the reference rendering.", "quantifier": "every node built by the constructors, every context, writer, map order and behaviour of callbacks", "why_tests_cant": "all templates at once, against a specification that does not mention the implementation", "anchors": ["element.go:Render", "attribute.go:Render", "value.go:Value.render", "conditional.go:Render", "collection.go:Render", "iterate.go:Render", "imperative.go:Render", "text.go:Render", "comment.go:Render", "fragment.go:Render", "pi.go:Render", "html/document.go:Render", "context/context.go:Context.Write"]}
{"id": "C72", "title": "Programs of constructor and Render calls", "statement": "A program that calls the constructors, NewValue, NewConcatValue and Render in any order on the results of earlier calls: run on the source it makes the calls of Write and of user code and gets the results that the model with shared attribute objects says, and panics exactly when that does; if no attribute is passed on twice these are the results one expects of immutable values; it does not panic if checked names are valid, iteration functions are not nil and members exist; a page it builds and renders is the reference rendering.", "quantifier": "every program, writer, map order, user state, behaviour of callbacks and value of PanicOnInvalidName", "why_tests_cant": "all sequences of calls and all aliasing between the nodes they build", "anchors": ["element.go:NewElement", "element.go:Element", "element.go:addAttributes", "element.go:contentsToNodes", "element.go:attributesAndContents", "attribute.go:NewAttribute", "attribute.go:NewDelimitedAttribute", "conditional.go:Conditional", "conditional.go:When", "collection.go:Collection", "iterate.go:Iterate", "iterate.go:IterateKey", "iterate.go:IterateYield", "imperative.go:Imperative", "text.go:Text", "comment.go:Comment", "fragment.go:Fragment", "pi.go:PI", "value.go:NewValue", "value.go:NewConcatValue", "value.go:newValues"]}
{"id": "C73", "title": "The functions of html, svg, css and htmx by name", "statement": "Every function of these packages except htmx.Headers and HeadersJS (C74), as written in the source, calls the constructor with the name, delimiter or unit that the table of the model lists for it; a program that uses these functions does what the program of constructor calls does; in particular html.Div(s) rendered gives <div>, the escaped string and </div>, and likewise each element, attribute, property and unit function, html.Aria, html.Data and htmx.On; the string constants of css and htmx have the values of the tables and are written as they are, in content and in attributes.", "quantifier": "every function of the four packages (more than 700), every string, program, writer, map order, user state and behaviour of callbacks", "why_tests_cant": "every function with every string; the few that are tested are tested with one", "anchors": ["html/elements.go:Div", "html/attributes.go:Class", "html/attributes.go:Aria", "html/attributes.go:Data", "svg/elements.go:Circle", "svg/attributes.go:Fill", "css/properties.go:styleAttribute", "css/units.go:Px", "htmx/attributes.go:On", "htmx/attributes.go:Var", "html/base.go:Text", "svg/base.go:Text"]}
{"id": "C74", "title": "The headers functions of htmx in the source", "statement": "htmx.Headers and HeadersJS as written in the source give the attribute that the model of C36 and C37 gives, whatever order Go picks in each loop over a map: header maps are merged, a later map winning, and shown as one object with sorted keys; Headers panics exactly if maps are mixed with other arguments; nothing is written, and no map or slice that was there is changed.", "quantifier": "every list of arguments in any heap, map order of every loop, user state and behaviour of callbacks", "why_tests_cant": "the orders of all loops over maps, and aliasing between the maps, the new map and the slices that are built", "anchors": ["htmx/attributes.go:Headers", "htmx/attributes.go:HeadersJS", "htmx/attributes.go:serialize"]}
{"id": "C75", "title": "The code generators in the source", "statement": "html.GenerateCode and svg.GenerateCode as written in the source, whatever the tokens of the input, do not panic and make the calls of Write that the model of C38 to C40 makes: with a writer that accepts everything the bytes written are a Go declaration, of the calls that stand for the document if tags match and names can be quoted, which run gives back the document (C53); the result is the error of the last write or else the reader's, nil for io.EOF; a dying writer has got a beginning of the code; a nil writer means standard output.", "quantifier": "every sequence of tokens, error at the end of the input, writer and heap", "why_tests_cant": "all inputs and all failures of the writer, for the loop with its closures over shared variables", "anchors": ["html/generator.go:GenerateCode", "html/generator.go:mappings", "svg/generator.go:GenerateCode", "svg/generator.go:mappings"]}
{"id": "C76", "title": "Templates in the source", "statement": "NewTemplate, MustNewTemplate and Template.Execute as written in the source do what the models of C44 and C61 say, whatever order the node map is ranged over in: NewTemplate makes the template, returns an error or panics as in C61, writes nothing and changes nothing; each execution makes the writes and callbacks of the model and returns its error, and leaves the template as it was, so that later executions do too; a page has each node in the place of its token, and nothing else if the nodes whose tokens stand inside a tag are attributes; the first node that fails ends it with its error, and a dying writer has got a beginning of the page.", "quantifier": "every text (however html/template reads it), node map, map order, data, cargo, writer, user state and behaviour of callbacks, number of executions", "why_tests_cant": "all node maps, map orders and failures of nodes and of the writer, over closures kept in a map", "anchors": ["template.go:NewTemplate", "template.go:MustNewTemplate", "template.go:contextFuncMap", "template.go:contextFunc", "template.go:Execute"]}
{"id": "C77", "title": "context.Get in the source", "statement": "Get and MustGet of package context as written in the source do what the model of C42 and C43 says and change nothing: Get returns the value of type T under the key in Data, otherwise that in Cargo, otherwise false; for cargo that has its declared types it panics exactly in the three cases of C43; MustGet returns the value of Get and panics exactly if Get returns false or panics.", "quantifier": "every context, key, type T, set of struct declarations and method sets", "why_tests_cant": "all types and shapes of cargo, with promotion through embedded structs", "anchors": ["context/context.go:Get", "context/context.go:MustGet"]}
{"id": "C78", "title": "Accessors and small functions in the source", "statement": "Type and Name of every node as written in the source return what the model of C62 says, without a write and without a change; an element, attribute or processing instruction rendered with a context that context.New made begins with the name it told; context.New makes a context with the data, cargo and writer given, no parent and no error, and changes nothing else; Nbsp is one &nbsp;, Nbsps(n) is n of them, and nil exactly if n is not positive.", "quantifier": "every node in any heap, data, cargo, map order, user state and behaviour of callbacks; every n", "why_tests_cant": "all nodes and all n, for the index arithmetic of the copying loop", "anchors": ["context/context.go:New", "text.go:Nbsp", "text.go:Nbsps", "element.go:Type", "element.go:Name", "attribute.go:Type", "attribute.go:Name"]}
{"id": "C79", "title": "The example programs of the README on the source", "statement": "Each program in _examples/readme, its calls run on the source with a writer that accepts everything, writes the page that the README shows with the data put in their places: strings escaped, numbers spelt out, nothing for entries that are missing; conditional classes, styles and attributes as the conditions say; an option for each item in order; the conditional attributes of example 11 in some order.", "quantifier": "every data map, cargo, map order and user state, every function in place of those of the examples, every list of items", "why_tests_cant": "all data, labels, lists and map orders; each example shows one", "anchors": ["_examples/readme/example_1/main.go:main", "_examples/readme/example_6/main.go:main", "_examples/readme/example_8/main.go:main", "_examples/readme/example_11/main.go:main", "_examples/readme/example_template/main.go:main"]}
{"id": "C80", "title": "Goroutines that share nodes and templates, on the source", "statement": "Any number of goroutines render nodes and execute templates that they share, each with a context and a writer of its own. Run on the source, step by step in any interleaving: nothing shared is ever written to, not even for a moment; no goroutine panics or waits; all return after a number of steps that does not depend on the schedule, each with the calls of Write and of user code, the results and the error in its context that it would have had alone. With one context for two goroutines this is false.", "quantifier": "every schedule, number of goroutines, shared heap, node, template, context, writer, map order, user state and behaviour of callbacks", "why_tests_cant": "all interleavings of all steps; a test sees a few, and the race detector only those it sees", "anchors": ["element.go:Render", "element.go:renderAttributes", "conditional.go:Render", "iterate.go:Render", "imperative.go:Render", "value.go:Value.render", "template.go:Execute", "context/context.go:Context.Write"]}
{"id": "C81", "title": "Goroutines that share a writer, on the source", "statement": "Any number of goroutines render nodes and execute templates that they share, with a context each, all to the same writer. Run on the source, call of Write by call of Write in any interleaving: nothing shared is ever written to; no goroutine panics or is stuck; each does what it does alone with a writer that gives it the answers it got; one whose calls were all accepted has its whole page among the calls, in order, and returns nil; if the writer dies it has got a beginning of every page, and a goroutine that was refused returns an error; if it accepts everything the output is a mixture of the pages. The pages need not be whole in the output.", "quantifier": "every schedule, shared writer (answering by all it has been sent), number of goroutines, shared heap, node, template, context, map order, user state and behaviour of callbacks", "why_tests_cant": "all interleavings of all steps and all writers", "anchors": ["template.go:Execute", "element.go:Render", "iterate.go:Render", "imperative.go:Render", "context/context.go:Context.Write"]}
{"id": "C82", "title": "Nodes that are handed in again, on the source", "statement": "What Render of the source does depends on what the node is, not on the objects it is made of: two values that stand for the same node, in any heaps, one of them perhaps made of objects that occur several times or belong to other pages, give the same calls of Write and of user code, the same state and the same error. Imperative functions and content collectors may hand in nodes that they or the page have already, instead of new ones, and nothing changes; only a plain attribute given to Start must have no spare room for values.", "quantifier": "every node, pair of heaps and of representations, choice by user code at every node of what to hand in, context, writer, map order, user state and behaviour of callbacks", "why_tests_cant": "all sharing between the objects of all pages", "anchors": ["imperative.go:WriteNodes", "imperative.go:Start", "collection.go:Render", "element.go:Render", "imperative.go:Render"]}

(** Golden files and option tables of the plugins of /repo (plugin/*/testdata/GoldenFiles, plugin/*/*_test.go), run through the
    whole model. The inputs were parsed outside Coq. Generated; these are tests, not proofs of the properties. *)
From Coq Require Import List NArith ZArith Bool String.
From Verif Require Import Bytes TextUtils Escape Dom DomUtils RenderText Engine CommonMark Table NetUrl Url.
Import ListNotations.
Open Scope N_scope.
Open Scope list_scope.

Definition run (c : converter) (doc : node) : outcome := convert_node stable_sort c (fun _ raw => assemble_absolute_url go_url [] raw) doc.
(** html.Render of the comments that occur in the golden files *)
Definition comment_html (n : node) : bytes := match n with Comment d => b "<!--" ++ replace_all [38] (b "&amp;") d ++ b "-->" | _ => [] end.
Definition golden_commonmark : converter :=
  do_actions (reg_renderer_for (b "#comment") TBlock (render_as_html comment_html) prio_early)
             (new_converter [OptPlugins [base_plugin; commonmark_plugin empty_config]]).
Definition golden_strike : converter :=
  new_converter [OptPlugins [base_plugin; commonmark_plugin empty_config; strikethrough_plugin []]].
Definition with_table (os : list table_option) : converter :=
  new_converter [OptPlugins [base_plugin; commonmark_plugin empty_config; table_plugin os]].
Definition with_config (cfg : config) : converter := new_converter [OptPlugins [base_plugin; commonmark_plugin cfg]].
Definition trim_result (o : outcome) : outcome := match o with Returned (Done s) => Returned (Done (trim_space s)) | _ => o end.

Example golden_commonmark_blockquote : (run (golden_commonmark) (Doc [Comment (b "simple blockquote"); Elem (b "html") [] [Elem (b "head") [] []; Elem (b "body") [] [Elem (b "blockquote") [] [Text (b "
First Line
Second Line
Third Line
")]; Text (b "

"); Comment (b "empty blockquote"); Text (b "
"); Elem (b "blockquote") [] []; Text (b "
"); Elem (b "blockquote") [] [Text (b " ")]; Text (b "
"); Elem (b "blockquote") [] [Text (b "  ")]; Text (b "
"); Elem (b "blockquote") [] [Text (b "

")]; Text (b "


"); Comment (b "with one break"); Text (b "
"); Elem (b "blockquote") [] [Text (b "Line A"); Elem (b "br") [] []; Text (b "Line B")]; Text (b "


"); Comment (b "with multiple breaks"); Text (b "
"); Elem (b "blockquote") [] [Text (b "
    "); Elem (b "p") [] [Text (b "Start Line")]; Text (b "
    "); Elem (b "br") [] []; Elem (b "br") [] []; Elem (b "br") [] []; Text (b "
    "); Elem (b "span") [] [Text (b " ")]; Text (b "
    "); Elem (b "br") [] []; Elem (b "br") [] []; Elem (b "br") [] []; Text (b "
    "); Elem (b "p") [] [Text (b "End Line")]; Text (b "
")]; Text (b "

"); Elem (b "blockquote") [] [Text (b "
    "); Elem (b "p") [] [Text (b "
      Start Line
      "); Elem (b "br") [] []; Elem (b "br") [] []; Elem (b "br") [] []; Text (b "
      "); Elem (b "span") [] [Text (b " ")]; Text (b "
      "); Elem (b "br") [] []; Elem (b "br") [] []; Elem (b "br") [] []; Text (b "
      End Line
    ")]; Text (b "
")]; Text (b "


"); Comment (b "large blockquote"); Text (b "
"); Elem (b "blockquote") [] [Text (b "
    "); Elem (b "p") [] [Text (b "Paragraph 1")]; Text (b "
    "); Elem (b "p") [] [Text (b "Paragraph 2")]; Text (b "
    "); Elem (b "p") [] [Text (b "Paragraph 3")]; Text (b "
")]; Text (b "


"); Comment (b "nested blockquote"); Text (b "
"); Elem (b "blockquote") [] [Text (b "
    "); Elem (b "p") [] [Text (b "before")]; Text (b "
    "); Elem (b "blockquote") [] [Text (b "
        "); Elem (b "p") [] [Text (b "nested")]; Text (b "
    ")]; Text (b "
    "); Elem (b "p") [] [Text (b "after")]; Text (b "
")]; Text (b "


"); Comment (b "other elements inside blockquote"); Text (b "
"); Elem (b "blockquote") [] [Text (b "
    "); Elem (b "h2") [] [Text (b "Heading")]; Text (b "

    "); Elem (b "ol") [] [Text (b "
        "); Elem (b "li") [] [Text (b "List Item 1")]; Text (b "
        "); Elem (b "li") [] [Text (b "List Item 2")]; Text (b "
    ")]; Text (b "

    "); Elem (b "p") [] [Text (b "A code block:")]; Text (b "
    "); Elem (b "pre") [] [Elem (b "code") [] [Text (b "code block content")]]; Text (b "
")]; Text (b "



"); Comment (b "------------------------------------
            Special Characters
-------------------------------------"); Text (b "
"); Elem (b "p") [] [Text (b "Not a > blockquote")]; Text (b "

"); Elem (b "p") [] [Text (b "
> not a blockquote
")]; Text (b "
")]]])) = Returned (Done (b "<!--simple blockquote-->

> First Line Second Line Third Line

<!--empty blockquote-->

<!--with one break-->

> Line A  
> Line B

<!--with multiple breaks-->

> Start Line
> 
> End Line

> Start Line
> 
> End Line

<!--large blockquote-->

> Paragraph 1
> 
> Paragraph 2
> 
> Paragraph 3

<!--nested blockquote-->

> before
> 
> > nested
> 
> after

<!--other elements inside blockquote-->

> ## Heading
> 
> 1. List Item 1
> 2. List Item 2
> 
> A code block:
> 
> ```
> code block content
> ```

<!--------------------------------------
            Special Characters
--------------------------------------->

Not a &gt; blockquote

&gt; not a blockquote")).
Proof. vm_compute. reflexivity. Qed.
Example golden_commonmark_bold : (run (golden_commonmark) (Doc [Comment (b "------------------------------------
                Basics
-------------------------------------"); Comment (b " inside a normal text "); Elem (b "html") [] [Elem (b "head") [] []; Elem (b "body") [] [Elem (b "p") [] [Text (b "some "); Elem (b "b") [] [Text (b "bold")]; Text (b " and "); Elem (b "strong") [] [Text (b "bold")]; Text (b " text")]; Text (b "

"); Comment (b " with many spaces "); Text (b "
"); Elem (b "p") [] [Text (b "some  "); Elem (b "b") [] [Text (b "  bold  ")]; Text (b "  and  "); Elem (b "strong") [] [Text (b "  bold  ")]; Text (b "  text")]; Text (b "

"); Comment (b " without spaces "); Text (b "
"); Elem (b "p") [] [Text (b "some"); Elem (b "b") [] [Text (b "bold")]; Text (b "and"); Elem (b "strong") [] [Text (b "bold")]; Text (b "text")]; Text (b "


"); Elem (b "hr") [] []; Text (b "


"); Comment (b " empty "); Text (b "
"); Elem (b "p") [] [Text (b "some "); Elem (b "strong") [] []; Text (b " text")]; Text (b "
"); Elem (b "p") [] [Text (b "some "); Elem (b "strong") [] [Text (b " ")]; Text (b " text")]; Text (b "
"); Elem (b "p") [] [Text (b "some "); Elem (b "strong") [] [Text (b "  ")]; Text (b " text")]; Text (b "

"); Elem (b "p") [] [Text (b "some"); Elem (b "strong") [] []; Text (b "text")]; Text (b "
"); Elem (b "p") [] [Text (b "some"); Elem (b "strong") [] [Text (b " ")]; Text (b "text")]; Text (b "
"); Elem (b "p") [] [Text (b "some"); Elem (b "strong") [] [Text (b "  ")]; Text (b "text")]; Text (b "



"); Comment (b "------------------------------------
                Intra-Word
-------------------------------------"); Text (b "
"); Elem (b "p") [] [Text (b " normal"); Elem (b "b") [] [Text (b "bold")]; Text (b "normal ")]; Text (b "

"); Elem (b "p") [] [Text (b " "); Elem (b "b") [] [Text (b "bold")]; Text (b "normal"); Elem (b "b") [] [Text (b "bold")]; Text (b " ")]; Text (b "



"); Comment (b "------------------------------------
                Nested
-------------------------------------"); Text (b "
"); Elem (b "p") [] [Elem (b "strong") [] [Elem (b "strong") [] [Text (b "very bold text")]]]; Text (b "

"); Elem (b "p") [] [Elem (b "b") [] [Elem (b "b") [] [Text (b "very bold text")]]]; Text (b "




"); Comment (b " crazy nesting"); Text (b "
"); Elem (b "p") [] [Text (b "
	"); Elem (b "b") [] [Elem (b "b") [] [Elem (b "i") [] [Elem (b "b") [] [Text (b "hello")]]]]; Text (b "

    ")]; Elem (b "hr") [] []; Text (b "

    "); Elem (b "b") [] [Elem (b "u") [] [Elem (b "b") [] [Elem (b "i") [] [Elem (b "u") [] [Elem (b "i") [] [Text (b "hello")]]]]]]; Text (b "
"); Elem (b "p") [] []; Text (b "


"); Comment (b "------------------------------------
                Adjacent
-------------------------------------"); Text (b "
"); Elem (b "div") [] [Text (b "
    "); Comment (b " next to each other "); Text (b "
    "); Elem (b "strong") [] [Text (b "bold one")]; Elem (b "strong") [] [Text (b "bold two")]; Text (b "
")]; Text (b "


"); Elem (b "p") [] [Text (b "
    "); Elem (b "b") [] [Elem (b "i") [] [Text (b "one")]]; Text (b "
    "); Elem (b "span") [] [Text (b "
        "); Elem (b "b") [] [Elem (b "i") [] [Text (b "two")]]; Text (b "
    ")]; Text (b "
")]; Text (b "

"); Elem (b "div") [] [Text (b "
    "); Comment (b " next to each other, but nested in spans "); Text (b "
    "); Elem (b "p") [] [Elem (b "strong") [] [Text (b "a")]; Elem (b "span") [] [Elem (b "strong") [] [Text (b "b")]]]; Text (b "
    "); Elem (b "p") [] [Elem (b "strong") [] [Text (b "a")]; Elem (b "span") [] [Elem (b "strong") [] [Text (b "b")]]]; Text (b "
    "); Elem (b "p") [] [Elem (b "strong") [] [Text (b "a")]; Elem (b "span") [] [Elem (b "strong") [] [Text (b "b")]]; Elem (b "span") [] [Elem (b "span") [] [Elem (b "strong") [] [Text (b "c")]]]]; Text (b "
    "); Elem (b "hr") [] []; Text (b "
    "); Elem (b "p") [] [Elem (b "strong") [] [Text (b "a")]; Elem (b "span") [] [Text (b " "); Elem (b "strong") [] [Text (b "b")]]]; Text (b "
")]; Text (b "


"); Elem (b "p") [] [Text (b "
    "); Elem (b "span") [] [Text (b "
        "); Elem (b "strong") [] [Text (b "Von Max Mustermann,  ")]; Text (b "
    ")]; Text (b "
    "); Elem (b "strong") [] [Text (b "
        "); Elem (b "span") [] [Text (b "Berlin")]; Text (b "
    ")]; Text (b "
")]; Text (b "


"); Comment (b "------------------------------------
                Combinations
-------------------------------------"); Text (b "
"); Elem (b "p") [] [Text (b "
	"); Elem (b "b") [] [Elem (b "i") [] [Text (b "bold and italic")]]; Text (b "
")]; Text (b "

"); Elem (b "p") [] [Text (b "
	"); Elem (b "i") [] [Elem (b "b") [] [Text (b "italic and bold")]]; Text (b "
")]; Text (b "



"); Comment (b "------------------------------------
        Punctuation at Edges 
-------------------------------------"); Text (b "

"); Elem (b "div") [] [Text (b "
    "); Elem (b "p") [] [Text (b "before"); Elem (b "em") [] [Text (b "middle")]; Text (b "after")]; Text (b "
    "); Elem (b "hr") [] []; Text (b "
    "); Elem (b "p") [] [Text (b "before"); Elem (b "em") [] [Text (b ".middle")]; Text (b "after")]; Text (b " 
    "); Elem (b "p") [] [Text (b "before"); Elem (b "em") [] [Text (b "middle.")]; Text (b "after")]; Text (b "
    "); Elem (b "p") [] [Text (b "before"); Elem (b "em") [] [Text (b ".middle.")]; Text (b "after")]; Text (b "
    "); Elem (b "hr") [] []; Text (b "
    "); Elem (b "p") [] [Text (b "before"); Elem (b "em") [] [Text (b " .middle ")]; Text (b "after")]; Text (b " 
    "); Elem (b "p") [] [Text (b "before"); Elem (b "em") [] [Text (b " middle. ")]; Text (b "after")]; Text (b "
    "); Elem (b "p") [] [Text (b "before"); Elem (b "em") [] [Text (b " .middle. ")]; Text (b "after")]; Text (b "
    "); Elem (b "hr") [] []; Text (b "
    "); Elem (b "p") [] [Text (b "before"); Elem (b "em") [] [Text (b "?!!middle?!!")]; Text (b "after")]; Text (b "
    "); Elem (b "hr") [] []; Text (b "
    "); Elem (b "p") [] [Text (b "before-"); Elem (b "em") [] [Text (b "middle")]; Text (b "-after")]; Text (b "
    "); Elem (b "p") [] [Text (b "before"); Elem (b "em") [] [Text (b "-middle-")]; Text (b "after")]; Text (b "
    "); Elem (b "hr") [] []; Text (b "
    "); Elem (b "p") [] [Text (b "check it out"); Elem (b "em") [] [Text (b ".")]]; Text (b "
    "); Elem (b "p") [] [Text (b "check it out"); Elem (b "em") [] [Text (b "?")]]; Text (b "
    "); Elem (b "p") [] [Text (b "check it out"); Elem (b "em") [] [Text (b "!!!")]]; Text (b "

    "); Elem (b "p") [] [Elem (b "em") [] [Text (b "!")]; Text (b "just after")]; Text (b "
    "); Elem (b "p") [] [Text (b "just before"); Elem (b "em") [] [Text (b "!")]]; Text (b "

    "); Elem (b "hr") [] []; Text (b "

    "); Elem (b "h4") [] [Text (b "heading")]; Elem (b "em") [] [Text (b "!italic!")]; Elem (b "h4") [] [Text (b "heading")]; Text (b "

    "); Elem (b "strong") [] [Text (b "see here:")]; Elem (b "blockquote") [] [Text (b "blockquote")]; Text (b "

    "); Elem (b "strong") [] [Text (b "see here:")]; Elem (b "p") [] [Text (b "paragraph")]; Text (b "

    "); Elem (b "em") [] [Elem (b "a") [((b "href"), (b "/"))] [Text (b "one.")]]; Elem (b "a") [((b "href"), (b "/"))] [Elem (b "span") [] [Text (b "two")]]; Text (b "

    "); Elem (b "a") [((b "href"), (b "/"))] [Elem (b "em") [] [Text (b "one.")]]; Elem (b "a") [((b "href"), (b "/"))] [Elem (b "span") [] [Text (b "two")]]; Text (b "

    "); Elem (b "hr") [] []; Text (b "

    "); Comment (b " TODO: the movement of this puncuation is not really nessesary... "); Text (b "
    "); Elem (b "div") [] [Text (b "before"); Elem (b "p") [] [Elem (b "em") [] [Text (b "!paragraph!")]]; Text (b "after")]; Text (b "
")]; Text (b "

")]]])) = Returned (Done (b "<!--------------------------------------
                Basics
--------------------------------------->

<!-- inside a normal text -->

some **bold** and **bold** text

<!-- with many spaces -->

some **bold** and **bold** text

<!-- without spaces -->

some**bold**and**bold**text

* * *

<!-- empty -->

some text

some text

some text

sometext

some text

some text

<!--------------------------------------
                Intra-Word
--------------------------------------->

normal**bold**normal

**bold**normal**bold**

<!--------------------------------------
                Nested
--------------------------------------->

**very bold text**

**very bold text**

<!-- crazy nesting-->

***hello***

* * *

***hello***

<!--------------------------------------
                Adjacent
--------------------------------------->

<!-- next to each other -->

**bold onebold two**

***one*** ***two***

<!-- next to each other, but nested in spans -->

**ab**

**ab**

**abc**

* * *

**a** **b**

**Von Max Mustermann,** **Berlin**

<!--------------------------------------
                Combinations
--------------------------------------->

***bold and italic***

***italic and bold***

<!--------------------------------------
        Punctuation at Edges 
--------------------------------------->

before*middle*after

* * *

before*.middle*after

before*middle.*after

before*.middle.*after

* * *

before *.middle* after

before *middle.* after

before *.middle.* after

* * *

before*?!!middle?!!*after

* * *

before-*middle*-after

before*-middle-*after

* * *

check it out*.*

check it out*?*

check it out*!!!*

*!*just after

just before*!*

* * *

#### heading

*!italic!*

#### heading

**see here:**

> blockquote

**see here:**

paragraph

[*one.*](/)[two](/) [*one.*](/)[two](/)

* * *

<!-- TODO: the movement of this puncuation is not really nessesary... -->

before

*!paragraph!*

after")).
Proof. vm_compute. reflexivity. Qed.
Example golden_commonmark_code : (run (golden_commonmark) (Doc [Comment (b "------------------------------------
                Basics
-------------------------------------"); Comment (b "different tags"); Elem (b "html") [] [Elem (b "head") [] []; Elem (b "body") [] [Elem (b "div") [] [Elem (b "code") [] [Text (b "inline code")]]; Text (b "

"); Elem (b "div") [] [Elem (b "var") [] [Text (b "variable")]]; Text (b "

"); Elem (b "div") [] [Elem (b "samp") [] [Text (b "sample output")]]; Text (b "

"); Elem (b "div") [] [Elem (b "kbd") [] [Text (b "keyboard input")]]; Text (b "

"); Elem (b "div") [] [Elem (b "tt") [] [Text (b "teletype text")]]; Text (b "



"); Elem (b "hr") [] []; Text (b "


"); Comment (b "code tag inlined in a text"); Text (b "
"); Elem (b "div") [] [Text (b "When "); Elem (b "code") [] [Text (b "x = 3")]; Text (b ", that means "); Elem (b "code") [] [Text (b "x + 2 = 5")]]; Text (b "

"); Elem (b "div") [] [Text (b "A simple equation: "); Elem (b "var") [] [Text (b "x")]; Text (b " = "); Elem (b "var") [] [Text (b "y")]; Text (b " + 2 ")]; Text (b "



"); Comment (b "------------------------------------
                Adjacent
-------------------------------------"); Text (b "

"); Comment (b "code tags close to each other"); Text (b "
"); Elem (b "div") [] [Text (b "before "); Elem (b "code") [] [Text (b "A")]; Text (b " middle "); Elem (b "code") [] [Text (b "B")]; Text (b " after")]; Text (b "
"); Elem (b "div") [] [Text (b "before"); Elem (b "code") [] [Text (b "A")]; Text (b "middle"); Elem (b "code") [] [Text (b "B")]; Text (b "after")]; Text (b "

"); Comment (b "code tags next to each other"); Text (b "
"); Elem (b "div") [] [Text (b "before "); Elem (b "code") [] [Text (b "A")]; Text (b " "); Elem (b "code") [] [Text (b "B")]; Text (b " after")]; Text (b "
"); Elem (b "div") [] [Text (b "before"); Elem (b "code") [] [Text (b "A")]; Elem (b "code") [] [Text (b "B")]; Text (b "after")]; Text (b "


"); Elem (b "div") [] [Elem (b "code") [] [Text (b "A")]; Elem (b "var") [] [Text (b "B")]; Elem (b "samp") [] [Text (b "C")]; Elem (b "kbd") [] [Text (b "D")]; Elem (b "tt") [] [Text (b "E")]]; Text (b "



"); Comment (b "------------------------------------
            Other Tags (outside)
-------------------------------------"); Text (b "

"); Elem (b "div") [] [Text (b "before"); Elem (b "strong") [] [Elem (b "code") [] [Text (b "inline code")]]; Text (b "after")]; Text (b "
"); Elem (b "div") [] [Text (b "before"); Elem (b "em") [] [Elem (b "code") [] [Text (b "inline code")]]; Text (b "after")]; Text (b "

"); Elem (b "div") [] [Text (b "before"); Elem (b "strong") [] [Text (b "a"); Elem (b "code") [] [Text (b "inline code")]; Text (b "b")]; Text (b "after")]; Text (b "
"); Elem (b "div") [] [Text (b "before"); Elem (b "strong") [] [Elem (b "span") [] [Text (b "a")]; Elem (b "code") [] [Text (b "inline code")]; Elem (b "span") [] [Text (b "b")]]; Text (b "after")]; Text (b "
"); Elem (b "div") [] [Text (b "before"); Elem (b "strong") [] [Elem (b "span") [] []; Elem (b "code") [] [Text (b "inline code")]; Elem (b "span") [] []]; Text (b "after")]; Text (b "
"); Elem (b "div") [] [Text (b "before"); Elem (b "strong") [] [Elem (b "span") [] [Text (b " ")]; Elem (b "code") [] [Text (b "inline code")]; Elem (b "span") [] [Text (b " ")]]; Text (b "after")]; Text (b "

"); Elem (b "div") [] [Text (b "before"); Elem (b "em") [] [Elem (b "code") [] [Text (b "inline code")]; Text (b " and "); Elem (b "code") [] [Text (b "inline code")]]; Text (b "after")]; Text (b "
"); Elem (b "div") [] [Text (b "before"); Elem (b "em") [] [Elem (b "span") [] []; Elem (b "code") [] [Text (b "inline code")]; Text (b " and "); Elem (b "code") [] [Text (b "inline code")]; Elem (b "span") [] []]; Text (b "after")]; Text (b "


"); Elem (b "hr") [] []; Text (b "


"); Elem (b "div") [] [Text (b "before "); Elem (b "strong") [] [Elem (b "code") [] [Text (b "inline code")]]; Text (b " after")]; Text (b "
"); Elem (b "div") [] [Text (b "before "); Elem (b "em") [] [Elem (b "code") [] [Text (b "inline code")]]; Text (b " after")]; Text (b "

"); Elem (b "div") [] [Text (b "before  "); Elem (b "strong") [] [Text (b "  "); Elem (b "code") [] [Text (b "inline code")]; Text (b "  ")]; Text (b "  after")]; Text (b "
"); Elem (b "div") [] [Text (b "before  "); Elem (b "em") [] [Text (b "  "); Elem (b "code") [] [Text (b "inline code")]; Text (b "  ")]; Text (b "  after")]; Text (b "


"); Elem (b "hr") [] []; Text (b "


"); Elem (b "div") [] [Text (b "before "); Elem (b "strong") [] [Elem (b "code") [] [Text (b "<pre>")]]; Text (b " after")]; Text (b "


"); Comment (b "------------------------------------
            Other Tags (inside)
-------------------------------------"); Text (b "

"); Comment (b "code tag with other tags inside"); Text (b "
"); Elem (b "div") [] [Text (b "before "); Elem (b "code") [] [Text (b "<img>")]; Text (b " after")]; Text (b "
"); Elem (b "div") [] [Text (b "before "); Elem (b "code") [] [Elem (b "img") [] []]; Text (b " after")]; Text (b "
"); Elem (b "div") [] [Text (b "before "); Elem (b "samp") [] [Text (b "A "); Elem (b "em") [] [Text (b "middle")]; Text (b " B")]; Text (b " after")]; Text (b "


"); Comment (b "code tag with pre and other tags inside"); Text (b "
"); Elem (b "pre") [] [Elem (b "code") [] [Text (b "
The <img> tag is used to embed an image.

The "); Elem (b "img") [] []; Text (b " tag is used to embed an image.
")]]; Text (b "


"); Comment (b "list inside code block"); Text (b "
"); Elem (b "pre") [] [Elem (b "code") [] [Text (b "
    "); Elem (b "ul") [] [Text (b "
        "); Elem (b "li") [] [Text (b "List Item One")]; Text (b "
        "); Elem (b "li") [] [Text (b "List Item Two")]; Text (b "
        "); Elem (b "li") [] [Text (b "List Item Three")]; Text (b "
    ")]; Text (b "
")]]; Text (b "


"); Comment (b "------------------------------------
    Whitespace & Special Characters
-------------------------------------"); Text (b "

"); Comment (b "empty tags"); Text (b "
"); Elem (b "div") [] [Text (b "An inline code that is empty except spaces:")]; Text (b "
"); Elem (b "div") [] [Text (b "before"); Elem (b "code") [] []; Text (b "after")]; Text (b "
"); Elem (b "div") [] [Text (b "before "); Elem (b "code") [] []; Text (b " after")]; Text (b "
"); Elem (b "div") [] [Text (b "before  "); Elem (b "code") [] []; Text (b "  after")]; Text (b "

"); Elem (b "div") [] [Text (b "before"); Elem (b "code") [] [Text (b " ")]; Text (b "after")]; Text (b "
"); Elem (b "div") [] [Text (b "before "); Elem (b "code") [] [Text (b " ")]; Text (b " after")]; Text (b "
"); Elem (b "div") [] [Text (b "before  "); Elem (b "code") [] [Text (b " ")]; Text (b "  after")]; Text (b "

"); Elem (b "div") [] [Text (b "before"); Elem (b "code") [] [Text (b "  ")]; Text (b "after")]; Text (b "
"); Elem (b "div") [] [Text (b "before "); Elem (b "code") [] [Text (b "  ")]; Text (b " after")]; Text (b "
"); Elem (b "div") [] [Text (b "before  "); Elem (b "code") [] [Text (b "  ")]; Text (b "  after")]; Text (b "


"); Elem (b "div") [] [Text (b "before"); Elem (b "code") [] [Elem (b "img") [] []]; Text (b "after")]; Text (b "
"); Elem (b "div") [] [Text (b "before "); Elem (b "code") [] [Elem (b "img") [] []]; Text (b " after")]; Text (b "
"); Elem (b "div") [] [Text (b "before  "); Elem (b "code") [] [Elem (b "img") [] []]; Text (b "  after")]; Text (b "


"); Elem (b "pre") [] [Elem (b "code") [] []]; Text (b "
"); Elem (b "pre") [] [Elem (b "code") [] [Text (b " ")]]; Text (b "
"); Elem (b "pre") [] [Elem (b "code") [] [Text (b "  ")]]; Text (b "
"); Elem (b "pre") [] [Elem (b "code") [] [Text (b "
  
")]]; Text (b "


"); Elem (b "pre") [] [Elem (b "code") [] [Text (b "Beginning of code
 
  
  


End of code")]]; Text (b "

"); Elem (b "pre") [] [Elem (b "code") [] [Text (b "Start of many newlines






End of many newlines")]]; Text (b "



"); Elem (b "hr") [] []; Text (b "


"); Comment (b "white spaces at edges"); Text (b "
"); Elem (b "div") [] [Elem (b "code") [] [Text (b "inline code")]]; Text (b "
"); Elem (b "div") [] [Elem (b "code") [] [Text (b " inline code")]]; Text (b "
"); Elem (b "div") [] [Elem (b "code") [] [Text (b "inline code ")]]; Text (b "
"); Elem (b "div") [] [Elem (b "code") [] [Text (b " inline code ")]]; Text (b "
"); Elem (b "div") [] [Elem (b "code") [] [Text (b "  inline code  ")]]; Text (b "


"); Elem (b "hr") [] []; Text (b "


"); Comment (b "code tag with backtick"); Text (b "
"); Elem (b "div") [] [Text (b "An inline code that contains backticks:")]; Text (b "
"); Elem (b "div") [] [Elem (b "code") [] [Text (b "with ` backtick")]]; Text (b "
"); Elem (b "div") [] [Elem (b "code") [] [Text (b "with `` backticks")]]; Text (b "
"); Elem (b "div") [] [Elem (b "code") [] [Text (b "a ``` b ```` c ` d")]]; Text (b "
"); Elem (b "div") [] [Elem (b "code") [] [Text (b "`starting & ending with a backtick`")]]; Text (b "


"); Elem (b "hr") [] []; Text (b "


"); Elem (b "div") [] [Text (b "An inline code that just contains backticks:")]; Text (b "
"); Elem (b "div") [] [Text (b "before"); Elem (b "code") [] [Text (b "``")]; Text (b "after")]; Text (b "
"); Elem (b "div") [] [Text (b "before"); Elem (b "code") [] [Text (b " `` ")]; Text (b "after")]; Text (b "
"); Elem (b "div") [] [Text (b "before"); Elem (b "code") [] [Text (b "  ``  ")]; Text (b "after")]; Text (b "

"); Elem (b "div") [] [Text (b "before "); Elem (b "code") [] [Text (b "``")]; Text (b " after")]; Text (b "
"); Elem (b "div") [] [Text (b "before "); Elem (b "code") [] [Text (b " `` ")]; Text (b " after")]; Text (b "
"); Elem (b "div") [] [Text (b "before "); Elem (b "code") [] [Text (b "  ``  ")]; Text (b " after")]; Text (b "

"); Elem (b "div") [] [Text (b "before  "); Elem (b "code") [] [Text (b "``")]; Text (b "  after")]; Text (b "
"); Elem (b "div") [] [Text (b "before  "); Elem (b "code") [] [Text (b " `` ")]; Text (b "  after")]; Text (b "
"); Elem (b "div") [] [Text (b "before  "); Elem (b "code") [] [Text (b "  ``  ")]; Text (b "  after")]; Text (b "


"); Elem (b "hr") [] []; Text (b "


"); Comment (b "with fence characters"); Text (b "
"); Elem (b "pre") [] [Elem (b "code") [] [Text (b "```")]]; Text (b "

"); Elem (b "pre") [] [Elem (b "code") [] [Text (b "~~~")]]; Text (b "

"); Elem (b "pre") [] [Elem (b "code") [] [Text (b "
Some ```
totally `````` normal
` code
")]]; Text (b "

"); Elem (b "pre") [] [Elem (b "code") [] [Text (b "
Some ~~~
totally ~~~~~~ normal
~ code
")]]; Text (b "



"); Comment (b "------------------------------------
            Combinations
-------------------------------------"); Text (b "

"); Elem (b "div") [] [Text (b "before "); Elem (b "code") [] [Text (b "just code")]; Text (b " after")]; Text (b "
"); Elem (b "div") [] [Text (b "before "); Elem (b "pre") [] [Text (b "just pre")]; Text (b " after")]; Text (b "

"); Elem (b "div") [] [Text (b "before "); Elem (b "code") [] [Elem (b "pre") [] [Text (b "code inside pre")]]; Text (b " after")]; Text (b "
"); Elem (b "div") [] [Text (b "before "); Elem (b "pre") [] [Elem (b "code") [] [Text (b "pre inside code")]]; Text (b " after")]; Text (b "


"); Elem (b "hr") [] []; Text (b "


"); Elem (b "div") [] [Text (b "before "); Elem (b "code") [] [Text (b "
// just code
// another line
")]; Text (b " after")]; Text (b "

"); Elem (b "div") [] [Text (b "before "); Elem (b "pre") [] [Text (b "// just pre
// another line
")]; Text (b " after")]; Text (b "

"); Elem (b "div") [] [Text (b "before "); Elem (b "code") [] [Elem (b "pre") [] [Text (b "// code inside pre
// another line
")]]; Text (b " after")]; Text (b "

"); Elem (b "div") [] [Text (b "before "); Elem (b "pre") [] [Elem (b "code") [] [Text (b "
// pre inside code
// another line
")]]; Text (b " after")]; Text (b "



"); Comment (b "------------------------------------
            Languages
-------------------------------------"); Text (b "

"); Elem (b "div") [] [Elem (b "pre") [((b "class"), (b "language-one"))] [Elem (b "code") [((b "class"), (b "language-two"))] [Text (b "content")]]]; Text (b "
"); Elem (b "div") [] [Elem (b "code") [((b "class"), (b "language-one"))] [Elem (b "pre") [((b "class"), (b "language-two"))] [Text (b "content")]]]; Text (b "


"); Comment (b "------------------------------------
            With Highlighting
-------------------------------------"); Text (b "


"); Elem (b "div") [] [Elem (b "pre") [] [Elem (b "code") [] [Text (b "Line 0
    Line 1 "); Elem (b "span") [] [Text (b "A")]; Elem (b "span") [] [Text (b "B")]; Text (b " "); Elem (b "span") [] [Text (b "C")]; Text (b "
    Line 2 "); Elem (b "span") [] [Text (b "A")]; Elem (b "span") [] [Text (b "B")]; Text (b " "); Elem (b "span") [] [Text (b "C")]; Text (b "
Line 3")]]]; Text (b "

"); Elem (b "hr") [] []; Text (b "

"); Elem (b "div") [] [Elem (b "pre") [] [Elem (b "code") [] [Text (b "
    Line 1 "); Elem (b "span") [] [Text (b "A")]; Elem (b "span") [] [Text (b "B")]; Text (b " "); Elem (b "span") [] [Text (b "C")]; Text (b "
    Line 2 "); Elem (b "span") [] [Text (b "A")]; Elem (b "span") [] [Text (b "B")]; Text (b " "); Elem (b "span") [] [Text (b "C")]; Text (b "
")]]]; Text (b "

"); Elem (b "hr") [] []; Text (b "

"); Elem (b "div") [] [Elem (b "pre") [] [Elem (b "code") [] [Text (b "
    Line 1 "); Elem (b "span") [] [Text (b "A")]; Elem (b "span") [] [Text (b "B")]; Text (b " "); Elem (b "span") [] [Text (b "C")]; Text (b "
    Line 2 "); Elem (b "span") [] [Text (b "A")]; Elem (b "span") [] [Text (b "B")]; Text (b " "); Elem (b "span") [] [Text (b "C")]; Text (b "

")]]]; Text (b "



")]]])) = Returned (Done (b "<!--------------------------------------
                Basics
--------------------------------------->

<!--different tags-->

`inline code`

`variable`

`sample output`

`keyboard input`

`teletype text`

* * *

<!--code tag inlined in a text-->

When `x = 3`, that means `x + 2 = 5`

A simple equation: `x` = `y` + 2

<!--------------------------------------
                Adjacent
--------------------------------------->

<!--code tags close to each other-->

before `A` middle `B` after

before`A`middle`B`after

<!--code tags next to each other-->

before `A` `B` after

before`AB`after

`ABCDE`

<!--------------------------------------
            Other Tags (outside)
--------------------------------------->

before **`inline code`** after

before *`inline code`* after

before**a`inline code`b**after

before**a`inline code`b**after

before **`inline code`** after

before **`inline code`** after

before *`inline code` and `inline code`* after

before *`inline code` and `inline code`* after

* * *

before **`inline code`** after

before *`inline code`* after

before **`inline code`** after

before *`inline code`* after

* * *

before **`<pre>`** after

<!--------------------------------------
            Other Tags (inside)
--------------------------------------->

<!--code tag with other tags inside-->

before `<img>` after

before after

before `A middle B` after

<!--code tag with pre and other tags inside-->

```

The <img> tag is used to embed an image.

The  tag is used to embed an image.
```

<!--list inside code block-->

```

    
        List Item One
        List Item Two
        List Item Three
    
```

<!--------------------------------------
    Whitespace &amp; Special Characters
--------------------------------------->

<!--empty tags-->

An inline code that is empty except spaces:

beforeafter

before after

before after

before` `after

before ` ` after

before ` ` after

before`  `after

before `  ` after

before `  ` after

beforeafter

before after

before after

```

```

```
 
```

```
  
```

```

  
```

```
Beginning of code
 
  
  


End of code
```

```
Start of many newlines






End of many newlines
```

* * *

<!--white spaces at edges-->

`inline code`

`inline code`

`inline code`

`inline code`

`inline code`

* * *

<!--code tag with backtick-->

An inline code that contains backticks:

``with ` backtick``

```with `` backticks```

`````a ``` b ```` c ` d`````

`` `starting & ending with a backtick` ``

* * *

An inline code that just contains backticks:

before``` `` ```after

before``` `` ```after

before``` `` ```after

before ``` `` ``` after

before ``` `` ``` after

before ``` `` ``` after

before ``` `` ``` after

before ``` `` ``` after

before ``` `` ``` after

* * *

<!--with fence characters-->

````
```
````

```
~~~
```

```````

Some ```
totally `````` normal
` code
```````

```

Some ~~~
totally ~~~~~~ normal
~ code
```

<!--------------------------------------
            Combinations
--------------------------------------->

before `just code` after

before

```
just pre
```

after

before

```
code inside pre
```

after

before

```
pre inside code
```

after

* * *

before `// just code // another line` after

before

```
// just pre
// another line
```

after

before

```
// code inside pre
// another line
```

after

before

```

// pre inside code
// another line
```

after

<!--------------------------------------
            Languages
--------------------------------------->

```one
content
```

```two
content
```

<!--------------------------------------
            With Highlighting
--------------------------------------->

```
Line 0
    Line 1 AB C
    Line 2 AB C
Line 3
```

* * *

```

    Line 1 AB C
    Line 2 AB C
```

* * *

```

    Line 1 AB C
    Line 2 AB C

```")).
Proof. vm_compute. reflexivity. Qed.
Example golden_commonmark_heading : (run (golden_commonmark) (Doc [Comment (b "------------------------------------
                Basics
-------------------------------------"); Comment (b "simple headings"); Elem (b "html") [] [Elem (b "head") [] []; Elem (b "body") [] [Elem (b "h1") [] [Text (b "Heading 1")]; Text (b "
"); Elem (b "h2") [] [Text (b "Heading 2")]; Text (b "
"); Elem (b "h3") [] [Text (b "Heading 3")]; Text (b "
"); Elem (b "h4") [] [Text (b "Heading 4")]; Text (b "
"); Elem (b "h5") [] [Text (b "Heading 5")]; Text (b "
"); Elem (b "h6") [] [Text (b "Heading 6")]; Text (b "
"); Elem (b "h7") [] [Text (b "Heading 7")]; Text (b "


"); Comment (b "------------------------------------
                Whitespace
-------------------------------------"); Text (b "

"); Elem (b "h1") [] []; Text (b "
"); Elem (b "h1") [] [Text (b " ")]; Text (b "
"); Elem (b "h1") [] [Text (b "  ")]; Text (b "
"); Elem (b "h1") [] [Text (b "a")]; Text (b "
"); Elem (b "h1") [] [Text (b " a ")]; Text (b "
"); Elem (b "h1") [] [Text (b "  a  ")]; Text (b "
"); Elem (b "h1") [] [Text (b " "); Elem (b "br") [] []; Text (b " ")]; Text (b "


"); Comment (b "with whitespace"); Text (b "
"); Elem (b "h2") [] [Text (b "  heading with spaces  ")]; Text (b "
"); Elem (b "h2") [] [Text (b "  heading   with    spaces		and		tabs  ")]; Text (b "


"); Elem (b "h2") [] [Text (b "

    heading
    with
    newlines

")]; Text (b "

"); Elem (b "h2") [] [Text (b "heading"); Elem (b "br") [] []; Elem (b "br") [] []; Text (b "with"); Elem (b "br") [] []; Text (b "breaks")]; Text (b "
"); Elem (b "h2") [] [Elem (b "br") [] []; Elem (b "br") [] []; Text (b "heading with breaks"); Elem (b "br") [] []; Elem (b "br") [] []]; Text (b "




"); Comment (b "------------------------------------
            Special Characters
-------------------------------------"); Text (b "


"); Elem (b "h1") [] [Text (b "#hashtag")]; Text (b "
"); Elem (b "h1") [] [Text (b "# Heading")]; Text (b "

"); Comment (b " just a # sign "); Text (b "
"); Elem (b "h1") [] [Text (b "#")]; Text (b "
"); Elem (b "h1") [] [Text (b "  #  ")]; Text (b "

"); Comment (b " a # sign at the end would be removed "); Text (b "
"); Elem (b "h1") [] [Text (b "# Heading #")]; Text (b "
"); Elem (b "h1") [] [Text (b "Heading #")]; Text (b "
"); Elem (b "h1") [] [Text (b "Heading ##")]; Text (b "
"); Comment (b " already escaped "); Text (b "
"); Elem (b "h1") [] [Text (b "Heading \#")]; Text (b "


"); Elem (b "hr") [] []; Text (b "


"); Elem (b "p") [] [Text (b "These should not be recognized as headings:")]; Text (b "
"); Elem (b "p") [] [Text (b "not title"); Elem (b "br") [] []; Text (b "===")]; Text (b "
"); Elem (b "p") [] [Text (b "not title"); Elem (b "br") [] []; Text (b "=")]; Text (b "

"); Elem (b "p") [] [Text (b "not title"); Elem (b "br") [] []; Text (b "---")]; Text (b "
"); Elem (b "p") [] [Text (b "not title"); Elem (b "br") [] []; Text (b "-")]; Text (b "

"); Elem (b "p") [] [Text (b "#not title")]; Text (b "
"); Elem (b "p") [] [Text (b "# not title")]; Text (b "
"); Elem (b "p") [] [Text (b "## not title")]; Text (b "





"); Comment (b "------------------------------------
                Combinations
-------------------------------------"); Text (b "

"); Comment (b "inline elements are allowed"); Text (b "
"); Elem (b "h2") [] [Elem (b "strong") [] [Text (b "important")]; Text (b " "); Elem (b "code") [] [Text (b "h2")]; Text (b " "); Elem (b "em") [] [Text (b "heading")]]; Text (b "



"); Comment (b "inside a link"); Text (b "
"); Elem (b "hr") [] []; Text (b "

"); Elem (b "blockquote") [] [Text (b "
    "); Elem (b "a") [((b "href"), (b "/page.html"))] [Text (b "
        "); Elem (b "h2") [] [Text (b "Heading 2")]; Text (b "
    ")]; Text (b "
")]; Text (b "

"); Elem (b "hr") [] []; Text (b "

"); Elem (b "blockquote") [] [Text (b "
    "); Elem (b "a") [((b "href"), (b "/page.html"))] [Text (b "
        "); Elem (b "h2") [] [Text (b "Heading 2")]; Text (b "
        "); Elem (b "h5") [] [Text (b "Heading 5")]; Text (b "
    ")]; Text (b "
")]; Text (b "

"); Elem (b "hr") [] []; Text (b "

"); Elem (b "blockquote") [] [Text (b "
    "); Elem (b "a") [((b "href"), (b "/page.html"))] [Text (b "
        "); Elem (b "h2") [] [Text (b "Heading 2")]; Text (b "
        "); Elem (b "p") [] [Text (b "
            Description Line 1"); Elem (b "br") [] []; Text (b "
            Description Line 2"); Elem (b "br") [] []; Text (b "
            Description Line 3"); Elem (b "br") [] []; Text (b "
        ")]; Text (b "
        "); Elem (b "blockquote") [] [Text (b "Some quote")]; Text (b "
    ")]; Text (b "
")]; Text (b "

"); Elem (b "hr") [] []; Text (b "



"); Comment (b "with a divider"); Text (b "
"); Elem (b "h4") [] [Elem (b "hr") [] []; Text (b "More posts from around the site:")]; Text (b "



"); Elem (b "hr") [] []; Text (b "


"); Comment (b "inside inline element"); Text (b "
"); Elem (b "div") [] [Text (b "
    "); Elem (b "span") [] [Text (b "
        "); Elem (b "div") [] [Text (b "
            "); Elem (b "span") [] [Text (b "
                "); Elem (b "h3") [] [Elem (b "b") [] [Text (b "Heading")]]; Text (b "
            ")]; Text (b "
        ")]; Text (b "
    ")]; Text (b "
")]; Text (b "

")]]])) = Returned (Done (b "<!--------------------------------------
                Basics
--------------------------------------->

<!--simple headings-->

# Heading 1

## Heading 2

### Heading 3

#### Heading 4

##### Heading 5

###### Heading 6

Heading 7

<!--------------------------------------
                Whitespace
--------------------------------------->

# a

# a

# a

<!--with whitespace-->

## heading with spaces

## heading with spaces and tabs

## heading with newlines

## heading with breaks

## heading with breaks

<!--------------------------------------
            Special Characters
--------------------------------------->

# #hashtag

# # Heading

<!-- just a # sign -->

# \#

# \#

<!-- a # sign at the end would be removed -->

# # Heading \#

# Heading \#

# Heading #\#

<!-- already escaped -->

# Heading \\#

* * *

These should not be recognized as headings:

not title  
\===

not title  
\=

not title  
\---

not title  
\-

#not title

\# not title

\## not title

<!--------------------------------------
                Combinations
--------------------------------------->

<!--inline elements are allowed-->

## **important** `h2` *heading*

<!--inside a link-->

* * *

> ## [Heading 2](/page.html)

* * *

> [**Heading 2**  
> **Heading 5**](/page.html)

* * *

> [**Heading 2**  
> \
> Description Line 1  
> Description Line 2  
> Description Line 3  
> \
> ""Some quote""](/page.html)

* * *

<!--with a divider-->

#### More posts from around the site:

* * *

<!--inside inline element-->

### **Heading**")).
Proof. vm_compute. reflexivity. Qed.
Example golden_commonmark_image : (run (golden_commonmark) (Doc [Comment (b "------------------------------------
                Basics
-------------------------------------"); Comment (b "no src attributes"); Elem (b "html") [] [Elem (b "head") [] []; Elem (b "body") [] [Elem (b "p") [] [Elem (b "img") [] []]; Text (b "
"); Elem (b "p") [] [Elem (b "img") [((b "src"), [])] []]; Text (b "

"); Comment (b "basics"); Text (b "
"); Elem (b "p") [] [Elem (b "img") [((b "src"), (b "/relative_url"))] []]; Text (b "
"); Elem (b "p") [] [Elem (b "img") [((b "src"), (b "www.example.com/absolute_url"))] []]; Text (b "


"); Comment (b "other attributes"); Text (b "
"); Elem (b "p") [] [Elem (b "img") [((b "src"), (b "/url")); ((b "alt"), (b "alt text"))] []]; Text (b "
"); Elem (b "p") [] [Elem (b "img") [((b "src"), (b "/url")); ((b "title"), (b "title text"))] []]; Text (b "
"); Elem (b "p") [] [Elem (b "img") [((b "src"), (b "/url")); ((b "alt"), (b "alt text")); ((b "title"), (b "title text"))] []]; Text (b "


"); Comment (b "------------------------------------
            Special Characters
-------------------------------------"); Text (b "

"); Elem (b "p") [] [Elem (b "img") [((b "src"), (b "/url")); ((b "alt"), (b "  the  alt  attribute  "))] []]; Text (b "
"); Elem (b "p") [] [Elem (b "img") [((b "src"), (b "/url")); ((b "alt"), (b "the alt ""attribute"""))] []]; Text (b "
"); Elem (b "p") [] [Elem (b "img") [((b "src"), (b "/url")); ((b "alt"), (b "the alt 'attribute'"))] []]; Text (b "
"); Elem (b "p") [] [Elem (b "img") [((b "src"), (b "/url")); ((b "alt"), (b "the
alt
attribute"))] []]; Text (b "
"); Elem (b "p") [] [Elem (b "img") [((b "src"), (b "/url")); ((b "alt"), (b "the [alt] attribute"))] []]; Text (b "
"); Elem (b "p") [] [Elem (b "img") [((b "src"), (b "/url")); ((b "alt"), (b "the (alt) attribute"))] []]; Text (b "
"); Elem (b "p") [] [Elem (b "img") [((b "src"), (b "/url")); ((b "alt"), (b "the ](alt) attribute"))] []]; Text (b "


"); Elem (b "hr") [] []; Text (b "


"); Elem (b "p") [] [Elem (b "img") [((b "src"), (b "/url")); ((b "title"), (b "  the  title  attribute  "))] []]; Text (b "
"); Elem (b "p") [] [Elem (b "img") [((b "src"), (b "/url")); ((b "title"), (b "the title ""attribute"""))] []]; Text (b "
"); Elem (b "p") [] [Elem (b "img") [((b "src"), (b "/url")); ((b "title"), (b "the title 'attribute'"))] []]; Text (b "
"); Elem (b "p") [] [Elem (b "img") [((b "src"), (b "/url")); ((b "title"), (b "the
title
attribute"))] []]; Text (b "
"); Elem (b "p") [] [Elem (b "img") [((b "src"), (b "/url")); ((b "title"), (b "the [title] attribute"))] []]; Text (b "
"); Elem (b "p") [] [Elem (b "img") [((b "src"), (b "/url")); ((b "title"), (b "the (title) attribute"))] []]; Text (b "
"); Elem (b "p") [] [Elem (b "img") [((b "src"), (b "/url")); ((b "title"), (b "the )(title) attribute"))] []]; Text (b "


"); Comment (b "------------------------------------
                Weird URLs
-------------------------------------"); Text (b "

"); Comment (b "image with data uri"); Text (b "
"); Elem (b "p") [] [Elem (b "img") [((b "src"), (b "data:image/gif;base64,abcdefghij"))] []]; Text (b "

"); Elem (b "p") [] [Elem (b "img") [((b "src"), (b "data:image/svg+xml;utf8,<svg xmlns='http://www.w3.org/2000/svg' width='1080' height='956'></svg>"))] []]; Text (b "


"); Comment (b "------------------------------------
            Combinations
-------------------------------------"); Text (b "

"); Comment (b " link with just image "); Text (b "
"); Elem (b "p") [] [Text (b "
	"); Elem (b "a") [] [Elem (b "i") [] [Elem (b "img") [((b "src"), (b "/search.svg")); ((b "alt"), (b "Such Icon"))] []]]; Text (b "
	"); Elem (b "a") [] [Elem (b "i") [] [Elem (b "img") [((b "src"), (b "/email.svg")); ((b "alt"), (b "Email Icon"))] []]]; Text (b "
")]; Text (b "

"); Elem (b "p") [] [Text (b "
	"); Elem (b "i") [] [Elem (b "a") [] [Elem (b "img") [((b "src"), (b "/search.svg")); ((b "alt"), (b "Such Icon"))] []]]; Text (b "
	"); Elem (b "i") [] [Elem (b "a") [] [Elem (b "img") [((b "src"), (b "/email.svg")); ((b "alt"), (b "Email Icon"))] []]]; Text (b "
")]; Text (b "


"); Elem (b "hr") [] []; Text (b "


"); Elem (b "p") [] [Text (b "
	"); Comment (b "image inside a link"); Text (b "
	"); Elem (b "a") [((b "href"), (b "/page.html")); ((b "title"), (b "link title text"))] [Text (b "
		"); Elem (b "img") [((b "src"), (b "/image.jpg")); ((b "alt"), (b "image alt text")); ((b "title"), (b "image title text"))] []; Text (b "
	")]; Text (b "

	"); Elem (b "br") [] []; Text (b "

	"); Comment (b "image inside an empty link"); Text (b "
	"); Elem (b "a") [((b "href"), []); ((b "title"), (b "link title text"))] [Text (b "
		"); Elem (b "img") [((b "src"), (b "/src")); ((b "alt"), (b "image alt text"))] []; Text (b "
	")]; Text (b "
")]; Text (b "




"); Comment (b "------------------------------------
            Picture / Figure
-------------------------------------"); Text (b "
"); Elem (b "picture") [] [Text (b "
	"); Elem (b "source") [((b "srcset"), (b "/image.webp 960w, /image.webp 520w")); ((b "sizes"), (b "(max-width: 519px) 100vw")); ((b "type"), (b "image/webp"))] []; Text (b "
	"); Elem (b "img") [((b "src"), (b "/image.jpg")); ((b "title"), (b "title text")); ((b "alt"), (b "alt text"))] []; Text (b "
")]; Text (b "


"); Elem (b "hr") [] []; Text (b "


"); Elem (b "figure") [] [Text (b "
	"); Elem (b "div") [] [Text (b "
		"); Elem (b "picture") [] [Text (b "
			"); Elem (b "source") [((b "srcset"), (b "/image.webp 960w, /image.webp 520w")); ((b "sizes"), (b "(max-width: 519px) 100vw")); ((b "type"), (b "image/webp"))] []; Text (b "
			"); Elem (b "img") [((b "src"), (b "/image.jpg")); ((b "title"), (b "title text")); ((b "alt"), (b "alt text"))] []; Text (b "
		")]; Text (b "
	")]; Text (b "
	"); Elem (b "figcaption") [] [Text (b "
		caption text
	")]; Text (b "
")]; Text (b "

")]]])) = Returned (Done (b "<!--------------------------------------
                Basics
--------------------------------------->

<!--no src attributes-->

<!--basics-->

![](/relative_url)

![](www.example.com/absolute_url)

<!--other attributes-->

![alt text](/url)

![](/url ""title text"")

![alt text](/url ""title text"")

<!--------------------------------------
            Special Characters
--------------------------------------->

![  the  alt  attribute  ](/url)

![the alt ""attribute""](/url)

![the alt 'attribute'](/url)

![the alt attribute](/url)

![the \[alt\] attribute](/url)

![the (alt) attribute](/url)

![the \](alt) attribute](/url)

* * *

![](/url ""  the  title  attribute  "")

![](/url 'the title ""attribute""')

![](/url ""the title 'attribute'"")

![](/url ""the title attribute"")

![](/url ""the [title] attribute"")

![](/url ""the (title) attribute"")

![](/url ""the )(title) attribute"")

<!--------------------------------------
                Weird URLs
--------------------------------------->

<!--image with data uri-->

![](data:image/gif;base64,abcdefghij)

![](data:image/svg+xml;utf8,%3Csvg%20xmlns='http://www.w3.org/2000/svg'%20width='1080'%20height='956'%3E%3C/svg%3E)

<!--------------------------------------
            Combinations
--------------------------------------->

<!-- link with just image -->

[*![Such Icon](/search.svg)*]() [*![Email Icon](/email.svg)*]()

[*![Such Icon](/search.svg)*]() [*![Email Icon](/email.svg)*]()

* * *

<!--image inside a link-->

[![image alt text](/image.jpg ""image title text"")](/page.html ""link title text"")

<!--image inside an empty link-->

[![image alt text](/src)]()

<!--------------------------------------
            Picture / Figure
--------------------------------------->

![alt text](/image.jpg ""title text"")

* * *

![alt text](/image.jpg ""title text"")

caption text")).
Proof. vm_compute. reflexivity. Qed.
Example golden_commonmark_link : (run (golden_commonmark) (Doc [Comment (b "------------------------------------
                Basics
-------------------------------------"); Comment (b "no href attributes"); Elem (b "html") [] [Elem (b "head") [] []; Elem (b "body") [] [Elem (b "p") [] [Elem (b "a") [] [Text (b "no href")]]; Text (b "
"); Elem (b "p") [] [Elem (b "a") [((b "href"), [])] [Text (b "no href")]]; Text (b "
"); Elem (b "p") [] [Elem (b "a") [((b "href"), []); ((b "title"), (b "link title"))] [Text (b "no href")]]; Text (b "

"); Elem (b "hr") [] []; Text (b "

"); Comment (b "no content"); Text (b "
"); Elem (b "p") [] [Elem (b "a") [((b "href"), (b "/no_content"))] []]; Text (b "
"); Elem (b "p") [] [Elem (b "a") [((b "href"), (b "/no_content"))] [Text (b " ")]]; Text (b "
"); Elem (b "p") [] [Elem (b "a") [((b "href"), (b "/no_content"))] [Text (b "  ")]]; Text (b "
"); Elem (b "p") [] [Elem (b "a") [((b "href"), (b "/no_content"))] [Text (b "

")]]; Text (b "
"); Elem (b "p") [] [Elem (b "a") [((b "href"), (b "/no_content"))] [Elem (b "br") [] []]]; Text (b "

"); Comment (b "no content but title"); Text (b "
"); Elem (b "p") [] [Elem (b "a") [((b "href"), (b "/no_content")); ((b "title"), (b "link title"))] []]; Text (b "


"); Elem (b "hr") [] []; Text (b "


"); Elem (b "p") [] [Elem (b "a") [((b "href"), (b "/page.html"))] [Text (b "relative link")]]; Text (b "
"); Elem (b "p") [] [Elem (b "a") [((b "href"), (b "http://simple.org/"))] [Text (b "absolute link")]]; Text (b "
"); Elem (b "p") [] [Elem (b "a") [((b "href"), (b "/page?b=1&a=2"))] [Text (b "query params")]]; Text (b "
"); Elem (b "p") [] [Elem (b "a") [((b "href"), (b "#heading"))] [Text (b "fragment heading")]]; Text (b "
"); Elem (b "p") [] [Elem (b "a") [((b "href"), (b "#"))] [Text (b "fragment")]]; Text (b "
"); Elem (b "p") [] [Text (b "
  Wir freuen uns über eine
  "); Elem (b "a") [((b "href"), (b "mailto:hi@example.com?body=Hello
Johannes		"))] [Text (b "Mail")]; Text (b "!
")]; Text (b "



"); Comment (b "link with broken href"); Text (b "
"); Elem (b "p") [] [Elem (b "a") [((b "href"), (b "/page

"))] [Text (b "broken link")]]; Text (b "
"); Elem (b "p") [] [Elem (b "a") [((b "href"), (b "/page

.html"))] [Text (b "broken link")]]; Text (b "


"); Elem (b "p") [] [Elem (b "a") [((b "href"), (b "  example.com  "))] [Text (b "with whitespace around")]]; Text (b "

"); Elem (b "p") [] [Elem (b "a") [((b "href"), (b "http://Open Demo"))] [Text (b "with space inside")]]; Text (b "



"); Comment (b "------------------------------------
            Attributes
-------------------------------------"); Text (b "

"); Comment (b "link with title"); Text (b "
"); Elem (b "p") [] [Elem (b "a") [((b "href"), (b "/")); ((b "title"), (b "link title"))] [Text (b "content")]]; Text (b "
"); Elem (b "p") [] [Elem (b "a") [((b "href"), (b "/")); ((b "title"), (b "  link title  "))] [Text (b "content")]]; Text (b "

"); Comment (b "link with multiline title"); Text (b "
"); Elem (b "p") [] [Elem (b "a") [((b "href"), (b "/")); ((b "title"), (b "
link

title
"))] [Text (b "content")]]; Text (b "
"); Elem (b "p") [] [Elem (b "a") [((b "href"), (b "/")); ((b "title"), (b """link title"""))] [Text (b "content")]]; Text (b "
"); Elem (b "p") [] [Elem (b "a") [((b "href"), (b "/")); ((b "title"), (b "'link title'"))] [Text (b "content")]]; Text (b "
"); Elem (b "p") [] [Elem (b "a") [((b "href"), (b "/")); ((b "title"), (b """link title"""))] [Text (b "content")]]; Text (b "




"); Comment (b "------------------------------------
            Escaping
-------------------------------------"); Text (b "
"); Comment (b "list with link"); Text (b "
"); Elem (b "ul") [] [Text (b "
    "); Elem (b "li") [] [Elem (b "a") [((b "href"), (b "/page.html"))] [Text (b "a(b)[c]")]]; Text (b "
    "); Elem (b "p") [] [Elem (b "a") [((b "href"), (b "/page.html"))] [Text (b "a]")]]; Text (b "
")]; Text (b "

"); Comment (b "TODO: list with paragraph"); Text (b "

"); Comment (b "link"); Text (b "
"); Elem (b "div") [] [Text (b "
    "); Elem (b "p") [] [Elem (b "a") [((b "href"), (b "/page.html"))] [Text (b "a(b)[c]")]]; Text (b "
    "); Elem (b "p") [] [Elem (b "a") [((b "href"), (b "/page.html"))] [Text (b "a]")]]; Text (b "
")]; Text (b "

"); Comment (b "paragraph"); Text (b "
"); Elem (b "div") [] [Text (b "
    "); Elem (b "p") [] [Text (b "a(b)[c]")]; Text (b "

	"); Elem (b "p") [] [Text (b "[a]")]; Text (b "
	"); Elem (b "p") [] [Text (b "[a")]; Text (b "
    "); Elem (b "p") [] [Text (b "a]")]; Text (b "
	
	"); Elem (b "p") [] [Text (b "(a)")]; Text (b "
	"); Elem (b "p") [] [Text (b "(a")]; Text (b "
	"); Elem (b "p") [] [Text (b "a)")]; Text (b "
")]; Text (b "


"); Comment (b "------------------------------------
            Adjacent
-------------------------------------"); Text (b "
"); Elem (b "p") [] [Elem (b "a") [((b "href"), (b "/"))] [Text (b "A")]; Elem (b "a") [((b "href"), (b "/"))] [Text (b "B")]]; Text (b "
"); Elem (b "p") [] [Elem (b "a") [((b "href"), (b "/"))] [Text (b "A")]; Text (b " "); Elem (b "a") [((b "href"), (b "/"))] [Text (b "B")]]; Text (b "

"); Elem (b "p") [] [Text (b "before"); Elem (b "a") [((b "href"), (b "/"))] [Text (b "A")]; Text (b "middle"); Elem (b "a") [((b "href"), (b "/"))] [Text (b "B")]; Text (b "after")]; Text (b "
"); Elem (b "p") [] [Text (b "before "); Elem (b "a") [((b "href"), (b "/"))] [Text (b "A")]; Text (b " middle "); Elem (b "a") [((b "href"), (b "/"))] [Text (b "B")]; Text (b " after")]; Text (b "
"); Elem (b "p") [] [Text (b "before  "); Elem (b "a") [((b "href"), (b "/"))] [Text (b "A")]; Text (b "  middle  "); Elem (b "a") [((b "href"), (b "/"))] [Text (b "B")]; Text (b "  after")]; Text (b "


"); Comment (b "------------------------------------
        Anchor Links in Headings
-------------------------------------"); Text (b "

"); Elem (b "h1") [((b "id"), (b "intro"))] [Text (b "
  "); Elem (b "a") [((b "href"), (b "#intro"))] [Text (b "Introduction")]; Text (b "
")]; Text (b "

"); Elem (b "h1") [((b "id"), (b "intro"))] [Text (b "
  "); Elem (b "a") [((b "href"), (b "#intro")); ((b "class"), (b "anchor"))] []; Text (b "
  Introduction
")]; Text (b "

"); Elem (b "h1") [((b "id"), (b "intro"))] [Text (b "
  Introduction
  "); Elem (b "a") [((b "href"), (b "#intro")); ((b "class"), (b "anchor"))] [Text (b "#")]; Text (b "
")]; Text (b "

"); Elem (b "h1") [((b "id"), (b "intro"))] [Text (b "
  "); Elem (b "a") [((b "href"), (b "#intro")); ((b "class"), (b "anchor"))] [Text (b "🔗")]; Text (b "
  Introduction
")]; Text (b "


"); Comment (b "------------------------------------
        Content and Combinations
-------------------------------------"); Text (b "

"); Comment (b "link with space"); Text (b "
"); Elem (b "p") [] [Text (b "before"); Elem (b "a") [((b "href"), (b "/"))] [Text (b " content ")]; Text (b "after")]; Text (b "
"); Elem (b "p") [] [Text (b "before "); Elem (b "a") [((b "href"), (b "/"))] [Text (b " content ")]; Text (b " after")]; Text (b "
"); Elem (b "p") [] [Text (b "before  "); Elem (b "a") [((b "href"), (b "/"))] [Text (b "  content  ")]; Text (b "  after")]; Text (b "


"); Elem (b "hr") [] []; Text (b "


"); Comment (b "link with inline styles"); Text (b "
"); Elem (b "p") [] [Elem (b "a") [((b "href"), (b "/"))] [Elem (b "strong") [] [Text (b "bold")]; Text (b " and "); Elem (b "em") [] [Text (b "italic")]; Text (b " text")]]; Text (b "
"); Elem (b "p") [] [Elem (b "strong") [] [Text (b "bold "); Elem (b "a") [((b "href"), (b "/"))] [Text (b "and "); Elem (b "em") [] [Text (b "italic")]]; Text (b " text")]]; Text (b "


"); Comment (b "link with one br"); Text (b "
"); Elem (b "a") [((b "href"), (b "/"))] [Text (b "A"); Elem (b "br") [] []; Text (b "B")]; Text (b "

"); Comment (b "link with two br"); Text (b "
"); Elem (b "a") [((b "href"), (b "/"))] [Text (b "A"); Elem (b "br") [] []; Elem (b "br") [] []; Text (b "B")]; Text (b "

"); Comment (b "link with three br"); Text (b "
"); Elem (b "a") [((b "href"), (b "/"))] [Text (b "A"); Elem (b "br") [] []; Elem (b "br") [] []; Elem (b "br") [] []; Text (b "B")]; Text (b "


"); Comment (b "link with multiple div"); Text (b "
"); Elem (b "a") [((b "href"), (b "/"))] [Text (b "
	"); Elem (b "div") [] [Text (b "A")]; Text (b "
	"); Elem (b "div") [] [Text (b "B")]; Text (b "
	"); Elem (b "div") [] [Text (b "C")]; Text (b "
")]; Text (b "


"); Comment (b "multiline link with too many newlines"); Text (b "
"); Elem (b "a") [((b "href"), (b "/"))] [Text (b "
	"); Elem (b "p") [] [Text (b "Start Line")]; Text (b "
    "); Elem (b "br") [] []; Elem (b "br") [] []; Elem (b "br") [] []; Text (b "
    "); Elem (b "span") [] [Text (b " ")]; Text (b "
    "); Elem (b "br") [] []; Elem (b "br") [] []; Elem (b "br") [] []; Text (b "
    "); Elem (b "p") [] [Text (b "End Line")]; Text (b "
")]; Text (b "

"); Comment (b "newlines inside link"); Text (b "
"); Elem (b "a") [((b "href"), (b "/"))] [Text (b "
	"); Elem (b "br") [] []; Elem (b "br") [] []; Elem (b "br") [] []; Text (b "
	"); Elem (b "p") [] [Text (b "newlines around the link content")]; Text (b "
    "); Elem (b "br") [] []; Elem (b "br") [] []; Elem (b "br") [] []; Text (b "
")]; Text (b "

"); Comment (b "multiline link inside a list item"); Text (b "
"); Elem (b "ul") [] [Text (b "
	"); Elem (b "li") [] [Text (b "
		"); Elem (b "a") [((b "href"), (b "/"))] [Text (b "
			"); Elem (b "p") [] [Text (b "first text")]; Text (b "
			"); Elem (b "br") [] []; Text (b "
			"); Elem (b "br") [] []; Text (b "
			"); Elem (b "br") [] []; Text (b "
			"); Elem (b "br") [] []; Text (b "
			"); Elem (b "br") [] []; Text (b "
			"); Elem (b "br") [] []; Text (b "
			"); Elem (b "br") [] []; Text (b "
			"); Elem (b "br") [] []; Text (b "
			"); Elem (b "p") [] [Text (b "second text")]; Text (b "
		")]; Text (b "
	")]; Text (b "
")]; Text (b "


"); Comment (b "link with image"); Text (b "
"); Elem (b "p") [] [Elem (b "a") [((b "href"), (b "/page.html"))] [Elem (b "img") [((b "src"), (b "/image.jpg"))] []]]; Text (b "

"); Comment (b "multiline link"); Text (b "
"); Elem (b "div") [] [Text (b "
	"); Elem (b "a") [((b "href"), (b "/page.html"))] [Text (b "
		"); Elem (b "p") [] [Text (b "first text")]; Text (b "
		"); Elem (b "img") [((b "src"), (b "/image.jpg"))] []; Text (b "
		"); Elem (b "p") [] [Text (b "second text")]; Text (b "
	")]; Text (b "
")]; Text (b "

"); Comment (b "link with headings"); Text (b "
"); Elem (b "div") [] [Text (b "
	"); Elem (b "a") [((b "href"), (b "/page.html"))] [Text (b "
		"); Elem (b "h4") [] [Text (b "Heading A")]; Text (b "
		"); Elem (b "h3") [] [Text (b "Heading B")]; Text (b "
	")]; Text (b "
")]; Text (b "

"); Comment (b "link with an svg"); Text (b "
"); Elem (b "div") [] [Text (b "
	"); Elem (b "a") [((b "aria-label"), (b "aria label")); ((b "title"), (b "title")); ((b "href"), (b "/"))] [Text (b "
		"); Elem (b "svg") [((b "height"), (b "24")); ((b "viewbox"), (b "0 0 16 16")); ((b "version"), (b "1.1")); ((b "width"), (b "24")); ((b "aria-hidden"), (b "true"))] [Elem (b "path") [((b "fill-rule"), (b "evenodd")); ((b "d"), (b "..."))] []]; Text (b "
	")]; Text (b "
")]; Text (b "


"); Comment (b " link and strong inside word "); Text (b "
"); Elem (b "p") [] [Text (b "before "); Elem (b "strong") [] [Elem (b "a") [((b "href"), (b "/"))] [Text (b "a inside strong")]]; Text (b " after")]; Text (b "
"); Elem (b "p") [] [Text (b "before"); Elem (b "strong") [] [Elem (b "a") [((b "href"), (b "/"))] [Text (b "a inside strong")]]; Text (b "after")]; Text (b "

"); Elem (b "p") [] [Text (b "before "); Elem (b "a") [((b "href"), (b "/"))] [Elem (b "strong") [] [Text (b "strong inside a")]]; Text (b " after")]; Text (b "
"); Elem (b "p") [] [Text (b "before"); Elem (b "a") [((b "href"), (b "/"))] [Elem (b "strong") [] [Text (b "strong inside a")]]; Text (b "after")]; Text (b "


"); Elem (b "div") [] [Text (b "
	"); Elem (b "p") [] [Text (b "before  "); Elem (b "strong") [] [Elem (b "a") [((b "href"), (b "/"))] [Text (b "middle")]]; Text (b "  after")]; Text (b "
	"); Elem (b "p") [] [Text (b "before "); Elem (b "strong") [] [Elem (b "a") [((b "href"), (b "/"))] [Text (b "middle")]]; Text (b " after")]; Text (b "
	"); Elem (b "p") [] [Text (b "before"); Elem (b "strong") [] [Elem (b "a") [((b "href"), (b "/"))] [Text (b "middle")]]; Text (b "after")]; Text (b "

	"); Elem (b "p") [] [Text (b "before  "); Elem (b "strong") [] [Elem (b "a") [((b "href"), (b "/"))] [Text (b "  middle  ")]]; Text (b "  after")]; Text (b "
	"); Elem (b "p") [] [Text (b "before "); Elem (b "strong") [] [Elem (b "a") [((b "href"), (b "/"))] [Text (b "  middle  ")]]; Text (b " after")]; Text (b "
	"); Elem (b "p") [] [Text (b "before"); Elem (b "strong") [] [Elem (b "a") [((b "href"), (b "/"))] [Text (b "  middle  ")]]; Text (b "after")]; Text (b "

	"); Elem (b "p") [] [Text (b "before"); Elem (b "strong") [] [Elem (b "span") [] []; Elem (b "a") [((b "href"), (b "/"))] [Text (b "with empty span")]; Elem (b "span") [] []]; Text (b "after")]; Text (b "
	"); Elem (b "p") [] [Text (b "before"); Elem (b "strong") [] [Elem (b "span") [] [Text (b "  ")]; Elem (b "a") [((b "href"), (b "/"))] [Text (b "with empty span")]; Elem (b "span") [] [Text (b "  ")]]; Text (b "after")]; Text (b "
	"); Elem (b "p") [] [Text (b "before"); Elem (b "strong") [] [Elem (b "span") [] [Elem (b "span") [] [Text (b "  ")]; Text (b " ")]; Elem (b "a") [((b "href"), (b "/"))] [Text (b "with empty span")]; Elem (b "span") [] [Elem (b "span") [] [Text (b "  ")]; Text (b " ")]]; Text (b "after")]; Text (b "

	"); Elem (b "hr") [] []; Text (b "

	"); Elem (b "p") [] [Text (b "before"); Elem (b "strong") [] [Elem (b "a") [((b "href"), (b "/"))] [Text (b "a")]; Text (b " b")]; Text (b "after")]; Text (b "
	"); Elem (b "p") [] [Text (b "before"); Elem (b "strong") [] [Elem (b "a") [((b "href"), (b "/"))] [Text (b "a")]; Text (b "b")]; Text (b "after")]; Text (b "
	"); Elem (b "p") [] [Text (b "before"); Elem (b "strong") [] [Elem (b "a") [((b "href"), (b "/"))] [Text (b "a")]; Text (b " b "); Elem (b "a") [((b "href"), (b "/"))] [Text (b "c")]]; Text (b "after")]; Text (b "
")]; Text (b "

"); Elem (b "hr") [] []; Text (b "

"); Elem (b "p") [] [Text (b "before"); Elem (b "i") [] [Elem (b "a") [((b "href"), (b "/"))] [Text (b "a inside italic")]]; Text (b "after")]; Text (b "
"); Elem (b "p") [] [Text (b "before"); Elem (b "a") [((b "href"), (b "/"))] [Elem (b "i") [] [Text (b "italic inside a")]]; Text (b "after")]; Text (b "

"); Elem (b "p") [] [Text (b "before"); Elem (b "b") [] [Elem (b "a") [((b "href"), (b "/"))] [Text (b "a inside b")]]; Text (b "after")]; Text (b "
"); Elem (b "p") [] [Text (b "before"); Elem (b "a") [((b "href"), (b "/"))] [Elem (b "b") [] [Text (b "b inside a")]]; Text (b "after")]; Text (b "

"); Elem (b "p") [] [Text (b "before"); Elem (b "b") [] [Elem (b "a") [((b "href"), (b "/"))] [Elem (b "strong") [] [Text (b "already bold")]]]; Text (b "after")]; Text (b "

"); Elem (b "hr") [] []; Text (b "

"); Elem (b "p") [] [Text (b "before"); Elem (b "b") [] [Elem (b "span") [] [Elem (b "a") [((b "href"), (b "/"))] [Text (b "middle")]]]; Text (b "after")]; Text (b "
"); Elem (b "p") [] [Text (b "before"); Elem (b "b") [] [Elem (b "i") [] [Elem (b "a") [((b "href"), (b "/"))] [Text (b "inside bold & italic")]]]; Text (b "after")]; Text (b "
"); Elem (b "p") [] [Text (b "before"); Elem (b "b") [] [Elem (b "i") [] [Elem (b "a") [((b "href"), (b "/"))] [Text (b "inside bold & italic")]; Text (b "a")]; Text (b "b")]; Text (b "after")]; Text (b "
"); Elem (b "p") [] [Text (b "before"); Elem (b "b") [] [Elem (b "span") [] [Elem (b "a") [((b "href"), (b "/"))] [Text (b "inside bold & italic")]]]; Text (b "after")]; Text (b "
"); Elem (b "p") [] [Text (b "before"); Elem (b "b") [] [Text (b "a"); Elem (b "i") [] [Text (b "b"); Elem (b "a") [((b "href"), (b "/"))] [Text (b "c")]; Text (b "d")]; Text (b "e")]; Text (b "after")]; Text (b "

"); Elem (b "hr") [] []; Text (b "

"); Elem (b "p") [] [Text (b "before"); Elem (b "b") [] [Elem (b "i") [] [Text (b "italic")]; Elem (b "a") [((b "href"), (b "/"))] [Text (b "link")]; Elem (b "strong") [] [Text (b "strong")]]; Text (b "after")]; Text (b "


"); Comment (b "------------------------------------
                Nesting
-------------------------------------"); Text (b "

"); Elem (b "a") [((b "href"), (b "/a"))] [Text (b "
	"); Elem (b "table") [] [Text (b "
		"); Elem (b "tbody") [] [Elem (b "tr") [] [Text (b "
			"); Elem (b "td") [] [Text (b "
				"); Elem (b "p") [] [Text (b "before")]; Text (b "
				"); Elem (b "a") [((b "href"), (b "/b"))] [Text (b "another link")]; Text (b "
				"); Elem (b "p") [] [Text (b "after")]; Text (b "
			")]; Text (b "
		")]; Text (b "
	")]]; Text (b "
")]; Text (b "

")]]])) = Returned (Done (b "<!--------------------------------------
                Basics
--------------------------------------->

<!--no href attributes-->

[no href]()

[no href]()

[no href]()

* * *

<!--no content-->

[](/no_content)

[](/no_content)

[](/no_content)

[](/no_content)

[](/no_content)

<!--no content but title-->

[](/no_content ""link title"")

* * *

[relative link](/page.html)

[absolute link](http://simple.org/)

[query params](/page?b=1&a=2)

[fragment heading](#heading)

[fragment](#)

Wir freuen uns über eine [Mail](mailto:hi@example.com?body=Hello%0AJohannes)!

<!--link with broken href-->

[broken link](/page)

[broken link](/page%0A%0A.html)

[with whitespace around](example.com)

[with space inside](http://Open%20Demo)

<!--------------------------------------
            Attributes
--------------------------------------->

<!--link with title-->

[content](/ ""link title"")

[content](/ ""  link title  "")

<!--link with multiline title-->

[content](/ "" link  title "")

[content](/ '""link title""')

[content](/ ""'link title'"")

[content](/ '""link title""')

<!--------------------------------------
            Escaping
--------------------------------------->

<!--list with link-->

- [a(b)\[c\]](/page.html)
  
  [a\]](/page.html)

<!--TODO: list with paragraph-->

<!--link-->

[a(b)\[c\]](/page.html)

[a\]](/page.html)

<!--paragraph-->

a(b)\[c]

\[a]

[a

a]

(a)

(a

a)

<!--------------------------------------
            Adjacent
--------------------------------------->

[A](/)[B](/)

[A](/) [B](/)

before[A](/)middle[B](/)after

before [A](/) middle [B](/) after

before [A](/) middle [B](/) after

<!--------------------------------------
        Anchor Links in Headings
--------------------------------------->

# [Introduction](#intro)

# [](#intro)Introduction

# Introduction [#](#intro)

# [🔗](#intro) Introduction

<!--------------------------------------
        Content and Combinations
--------------------------------------->

<!--link with space-->

before [content](/) after

before [content](/) after

before [content](/) after

* * *

<!--link with inline styles-->

[**bold** and *italic* text](/)

**bold [and *italic*](/) text**

<!--link with one br-->

[A  
B](/) 

<!--link with two br-->

[A  
\
B](/) 

<!--link with three br-->

[A  
\
B](/)

<!--link with multiple div-->

[A  
\
B  
\
C](/)

<!--multiline link with too many newlines-->

[Start Line  
\
End Line](/)

<!--newlines inside link-->

[newlines around the link content](/)

<!--multiline link inside a list item-->

- [first text  
  \
  second text](/)

<!--link with image-->

[![](/image.jpg)](/page.html)

<!--multiline link-->

[first text  
\
![](/image.jpg)  
\
second text](/page.html)

<!--link with headings-->

[**Heading A**  
**Heading B**](/page.html)

<!--link with an svg-->

[](/ ""title"")

<!-- link and strong inside word -->

before [**a inside strong**](/) after

before[**a inside strong**](/)after

before [**strong inside a**](/) after

before[**strong inside a**](/)after

before [**middle**](/) after

before [**middle**](/) after

before[**middle**](/)after

before [**middle**](/) after

before [**middle**](/) after

before [**middle**](/) after

before**[with empty span](/)**after

before **[with empty span](/)** after

before **[with empty span](/)** after

* * *

before**[a](/) b**after

before**[a](/)b**after

before**[a](/) b [c](/)**after

* * *

before[*a inside italic*](/)after

before[*italic inside a*](/)after

before[**a inside b**](/)after

before[**b inside a**](/)after

before[**already bold**](/)after

* * *

before**[middle](/)**after

before**[*inside bold & italic*](/)**after

before***[inside bold & italic](/)a*b**after

before**[inside bold & italic](/)**after

before**a*b[c](/)d*e**after

* * *

before***italic*[link](/)strong**after

<!--------------------------------------
                Nesting
--------------------------------------->

[before  
\
another link  
\
after](/a)")).
Proof. vm_compute. reflexivity. Qed.
Example golden_commonmark_list : (run (golden_commonmark) (Doc [Elem (b "html") [] [Elem (b "head") [] []; Elem (b "body") [] [Elem (b "div") [] [Text (b "
  "); Elem (b "p") [] [Text (b "A paragraph")]; Text (b "
  "); Elem (b "ul") [] [Text (b "
    "); Elem (b "li") [] [Text (b "1")]; Text (b "
    "); Elem (b "li") [] []; Text (b "
    "); Elem (b "li") [] [Text (b "
      "); Elem (b "p") [] [Text (b "2")]; Text (b "
    ")]; Text (b "
    "); Elem (b "li") [] [Text (b "
      "); Elem (b "ul") [] [Text (b "
        "); Elem (b "li") [] [Text (b "3.1")]; Text (b "
        "); Elem (b "li") [] [Text (b "3.2")]; Text (b "
      ")]; Text (b "
    ")]; Text (b "
    "); Elem (b "li") [] [Text (b "
      "); Elem (b "span") [] [Text (b "4 Before")]; Text (b "
      "); Elem (b "ul") [] [Text (b "
        "); Elem (b "li") [] [Text (b "4.1")]; Text (b "
        "); Elem (b "li") [] [Text (b "
          "); Elem (b "p") [] [Text (b "4.2")]; Text (b "
        ")]; Text (b "
      ")]; Text (b "
    ")]; Text (b "
    "); Elem (b "li") [] [Text (b "
      "); Elem (b "ul") [] [Text (b "
        "); Elem (b "li") [] [Text (b "5.1")]; Text (b "
      ")]; Text (b "
      "); Elem (b "p") [] [Text (b "5 After")]; Text (b "
    ")]; Text (b "
    "); Elem (b "li") [] [Text (b "
      "); Elem (b "span") [] [Text (b "
        6 Before "); Elem (b "br") [] []; Text (b "
        6 also Before
      ")]; Text (b "
      "); Elem (b "ul") [] [Text (b "
        "); Elem (b "li") [] [Text (b "6A.1")]; Text (b "
      ")]; Text (b "
      "); Elem (b "span") [] [Text (b "6 Between")]; Text (b "
      "); Elem (b "ul") [] [Text (b "
        "); Elem (b "li") [] [Text (b "6B.1")]; Text (b "
      ")]; Text (b "
      "); Elem (b "p") [] [Text (b "6 After")]; Text (b "
      "); Elem (b "p") [] [Text (b "6 also After")]; Text (b "
    ")]; Text (b "
    "); Elem (b "li") [] [Text (b "7")]; Text (b "
  ")]; Text (b "
")]; Text (b "


"); Elem (b "hr") [] []; Text (b "


"); Elem (b "div") [] [Text (b "
  "); Elem (b "p") [] [Text (b "And also other lists...")]; Text (b "

  "); Elem (b "ul") [] [Text (b "
    "); Elem (b "li") [] [Text (b "First")]; Text (b "
    "); Elem (b "li") [] [Text (b "
      "); Elem (b "p") [] [Text (b "Someone once said:")]; Text (b "
      "); Elem (b "blockquote") [] [Text (b "My famous quote")]; Text (b "
      "); Elem (b "span") [] [Text (b "- someone")]; Text (b "
    ")]; Text (b "
  ")]; Text (b "
  "); Elem (b "ol") [((b "start"), (b "9"))] [Text (b "
    "); Elem (b "li") [] [Text (b "Nine")]; Text (b "
    "); Elem (b "li") [] [Text (b "Ten")]; Text (b "
    "); Elem (b "li") [] [Text (b "
      "); Elem (b "ol") [((b "start"), (b "111"))] [Text (b "
        "); Elem (b "li") [] [Text (b "Eleven.A")]; Text (b "
        "); Elem (b "li") [] [Text (b "Eleven.B")]; Text (b "
      ")]; Text (b "
    ")]; Text (b "
    "); Elem (b "li") [] [Text (b "
      "); Elem (b "p") [] [Text (b "Someone once said:")]; Text (b "
      "); Elem (b "blockquote") [] [Text (b "My famous quote")]; Text (b "
      "); Elem (b "span") [] [Text (b "- someone")]; Text (b "
    ")]; Text (b "
    "); Elem (b "li") [] [Text (b "Thirteen")]; Text (b "
  ")]; Text (b "

  "); Elem (b "li") [] [Text (b "List Item without Container")]; Text (b "
")]; Text (b "


"); Elem (b "hr") [] []; Text (b "


"); Comment (b " list with blockquote that contains break "); Text (b "
"); Elem (b "ol") [] [Text (b "
  "); Elem (b "li") [] [Text (b "
    "); Elem (b "blockquote") [] [Text (b "Line A"); Elem (b "br") [] []; Text (b "Line B")]; Text (b "
  ")]; Text (b "
")]; Text (b "


"); Elem (b "hr") [] []; Text (b "


"); Comment (b " parsing the number fails "); Text (b "
"); Elem (b "ol") [((b "start"), (b "text"))] [Text (b "
  "); Elem (b "li") [] [Text (b "one")]; Text (b "
  "); Elem (b "li") [] [Text (b "two")]; Text (b "
")]; Text (b "


"); Elem (b "hr") [] []; Text (b "


"); Elem (b "div") [] [Text (b "
  "); Comment (b " the max is one character: ""9"" "); Text (b "
  "); Elem (b "ol") [((b "start"), (b "8"))] [Text (b "
    "); Elem (b "li") [] [Text (b "a")]; Text (b "
    "); Elem (b "li") [] [Text (b "b")]; Text (b "
  ")]; Text (b "

  "); Comment (b " the max is two characters: ""10"" "); Text (b "
  "); Elem (b "ol") [((b "start"), (b "9"))] [Text (b "
    "); Elem (b "li") [] [Text (b "a")]; Text (b "
    "); Elem (b "li") [] [Text (b "b")]; Text (b "
  ")]; Text (b "
")]; Text (b "


"); Elem (b "hr") [] []; Text (b "


"); Elem (b "div") [] [Text (b "
  "); Elem (b "ul") [] [Text (b "
    "); Elem (b "li") [] [Text (b "Before
      text after")]; Text (b "
    "); Elem (b "li") [] [Text (b "Before
      "); Elem (b "a") [((b "href"), (b "/page"))] [Text (b "text")]; Text (b " after")]; Text (b "
  ")]; Text (b "
")]; Text (b "


"); Elem (b "hr") [] []; Text (b "


"); Elem (b "ul") [] [Elem (b "li") [] [Text (b "A double "); Elem (b "code") [] [Text (b "**")]; Text (b " "); Elem (b "a") [((b "href"), (b "/page"))] [Text (b "can open strong emphasis")]]]; Text (b "


"); Elem (b "hr") [] []; Text (b "


"); Elem (b "div") [] [Text (b "
  "); Elem (b "ul") [] [Elem (b "li") [] [Text (b "List 1")]]; Text (b "
  "); Elem (b "ul") [] [Elem (b "li") [] [Text (b "List 2")]]; Text (b "
  "); Elem (b "ul") [] []; Text (b "
  "); Elem (b "ul") [] [Elem (b "li") [] [Text (b "List 3")]]; Text (b "

  "); Elem (b "div") [] [Text (b "
    "); Elem (b "div") [] [Text (b "
      "); Elem (b "ul") [] [Elem (b "li") [] [Text (b "List 4")]]; Text (b "
      "); Elem (b "p") [] [Elem (b "span") [] [Text (b "text between")]]; Text (b "
      "); Elem (b "ul") [] [Elem (b "li") [] [Text (b "List 5")]]; Text (b "
      "); Elem (b "p") [] [Text (b "  ")]; Text (b "
      "); Elem (b "ul") [] [Elem (b "li") [] [Text (b "List 6")]]; Text (b "
      "); Elem (b "p") [] [Elem (b "br") [] []]; Text (b "
      "); Elem (b "ul") [] [Elem (b "li") [] [Text (b "List 7")]]; Text (b "
    ")]; Text (b "
  ")]; Text (b "

  "); Elem (b "hr") [] []; Text (b "

  "); Elem (b "ul") [] [Text (b "
    "); Elem (b "li") [] [Text (b "
      "); Elem (b "ul") [] [Elem (b "li") [] [Text (b "List 1")]]; Text (b "
      "); Elem (b "ul") [] [Elem (b "li") [] [Text (b "List 2")]]; Text (b "
      "); Elem (b "ul") [] [Elem (b "li") [] [Text (b "List 3")]]; Text (b "
    ")]; Text (b "
  ")]; Text (b "
")]; Text (b "


"); Comment (b " nesting "); Text (b "
"); Elem (b "ol") [] [Text (b "
  "); Elem (b "ol") [] [Text (b "
    "); Elem (b "ol") [] [Text (b "
      "); Elem (b "ol") [] [Text (b "
        "); Elem (b "ol") [] [Text (b "
          "); Elem (b "li") [] [Text (b "lots of list containers")]; Text (b "
        ")]; Text (b "
      ")]; Text (b "
    ")]; Text (b "
  ")]; Text (b "
")]; Text (b "

"); Elem (b "hr") [] []; Text (b "

"); Elem (b "ol") [] [Text (b "
  "); Elem (b "li") [] [Text (b "
    "); Elem (b "ol") [] [Text (b "
      "); Elem (b "li") [] [Text (b "
        "); Elem (b "ol") [] [Text (b "
          "); Elem (b "li") [] [Text (b "lots of list items")]; Text (b "
        ")]; Text (b "
      ")]; Text (b "
    ")]; Text (b "
  ")]; Text (b "
")]; Text (b "


"); Comment (b " with other elements inside the list "); Text (b "
"); Elem (b "ol") [] [Text (b "
  "); Elem (b "div") [] [Text (b "A 1 (div)")]; Text (b "
  A 2 (#text)
  "); Elem (b "li") [] [Text (b "A 3 (li)")]; Text (b "
  A 4 (#text)

  "); Elem (b "ol") [] [Text (b "
    "); Elem (b "li") [] [Text (b "B 1 (li)")]; Text (b "
    "); Elem (b "ol") [] [Text (b "
      "); Elem (b "li") [] [Text (b "C 1 (li)")]; Text (b "
      "); Elem (b "div") [] [Text (b "C 2 (div)")]; Text (b "
      "); Elem (b "div") [] [Text (b "C 3 (div)")]; Text (b "
    ")]; Text (b "
   
    "); Elem (b "div") [] [Text (b "B 2 (div)")]; Text (b "
    "); Elem (b "li") [] [Text (b "B 3 (li)")]; Text (b "
  ")]; Text (b "
")]; Text (b "


"); Comment (b " with breaks "); Text (b "
"); Elem (b "ul") [] [Text (b "
  "); Elem (b "li") [] [Text (b "
      "); Elem (b "p") [] [Text (b "Start Line")]; Text (b "
      "); Elem (b "br") [] []; Elem (b "br") [] []; Elem (b "br") [] []; Text (b "
      "); Elem (b "span") [] [Text (b " ")]; Text (b "
      "); Elem (b "br") [] []; Elem (b "br") [] []; Elem (b "br") [] []; Text (b "
      "); Elem (b "p") [] [Text (b "End Line")]; Text (b "
  ")]; Text (b "
  "); Elem (b "li") [] [Text (b "
    "); Elem (b "p") [] [Text (b "
      Start Line
      "); Elem (b "br") [] []; Elem (b "br") [] []; Elem (b "br") [] []; Text (b "
      "); Elem (b "span") [] [Text (b " ")]; Text (b "
      "); Elem (b "br") [] []; Elem (b "br") [] []; Elem (b "br") [] []; Text (b "
      End Line
    ")]; Text (b "
  ")]; Text (b "
")]; Text (b "


"); Elem (b "hr") [] []; Text (b "


"); Comment (b " with code block in item "); Text (b "
"); Elem (b "ul") [] [Text (b "
  "); Elem (b "li") [] [Text (b "
    item:
    "); Elem (b "pre") [] [Text (b "line 1
line 2")]; Text (b "
  ")]; Text (b "
  "); Elem (b "li") [] [Text (b "item 2")]; Text (b "
")]; Text (b "

"); Comment (b " with code block in nested item "); Text (b "
"); Elem (b "ul") [] [Text (b "
  "); Elem (b "li") [] [Text (b "
    item 1:
    "); Elem (b "ul") [] [Text (b "
      "); Elem (b "li") [] [Text (b "
        nested item 1:
        "); Elem (b "pre") [] [Text (b "line 1
line 2")]; Text (b "
      ")]; Text (b "
      "); Elem (b "li") [] [Text (b "nested item 2")]; Text (b "
    ")]; Text (b "
  ")]; Text (b "
  "); Elem (b "li") [] [Text (b "item 2")]; Text (b "
")]; Text (b "


"); Elem (b "hr") [] []; Text (b "


"); Comment (b "------------------------------------
            Special Characters
-------------------------------------"); Text (b "

"); Elem (b "p") [] [Text (b "1.")]; Text (b "
"); Elem (b "p") [] [Text (b "-")]; Text (b "
"); Elem (b "p") [] [Text (b "+")]; Text (b "
"); Elem (b "p") [] [Text (b "*")]; Text (b "

"); Elem (b "hr") [] []; Text (b "

"); Elem (b "p") [] [Text (b "1. not a list")]; Text (b "
"); Elem (b "p") [] [Text (b "- not a list")]; Text (b "
"); Elem (b "p") [] [Text (b "+ not a list")]; Text (b "
"); Elem (b "p") [] [Text (b "* not a list")]; Text (b "
")]]])) = Returned (Done (b "A paragraph

- 1
- 2
- - 3.1
  - 3.2
- 4 Before
  
  - 4.1
  - 4.2
- - 5.1
  
  5 After
- 6 Before  
  6 also Before
  
  - 6A.1
  
  6 Between
  
  - 6B.1
  
  6 After
  
  6 also After
- 7

* * *

And also other lists...

- First
- Someone once said:
  
  > My famous quote
  
  \- someone

<!--THE END-->

09. Nine
10. Ten
11. 111. Eleven.A
    112. Eleven.B
12. Someone once said:
    
    > My famous quote
    
    \- someone
13. Thirteen

List Item without Container

* * *

<!-- list with blockquote that contains break -->

1. > Line A  
   > Line B

* * *

<!-- parsing the number fails -->

1. one
2. two

* * *

<!-- the max is one character: ""9"" -->

8. a
9. b

<!--THE END-->

<!-- the max is two characters: ""10"" -->

09. a
10. b

* * *

- Before text after
- Before [text](/page) after

* * *

- A double `**` [can open strong emphasis](/page)

* * *

- List 1

<!--THE END-->

- List 2

<!--THE END-->

<!--THE END-->

- List 3

<!--THE END-->

- List 4

text between

- List 5

<!--THE END-->

- List 6

<!--THE END-->

- List 7

* * *

- - List 1
  
  <!--THE END-->
  
  - List 2
  
  <!--THE END-->
  
  - List 3

<!--THE END-->

<!-- nesting -->

1. 1. 1. 1. 1. lots of list containers

* * *

1. 1. 1. lots of list items

<!--THE END-->

<!-- with other elements inside the list -->

1. A 1 (div)
   
   A 2 (#text)
2. A 3 (li) A 4 (#text)
   
   1. B 1 (li)
      
      1. C 1 (li)
         
         C 2 (div)
         
         C 3 (div)
      
      B 2 (div)
   2. B 3 (li)

<!--THE END-->

<!-- with breaks -->

- Start Line
  
  End Line
- Start Line
  
  End Line

* * *

<!-- with code block in item -->

- item:
  
  ```
  line 1
  line 2
  ```
- item 2

<!--THE END-->

<!-- with code block in nested item -->

- item 1:
  
  - nested item 1:
    
    ```
    line 1
    line 2
    ```
  - nested item 2
- item 2

* * *

<!--------------------------------------
            Special Characters
--------------------------------------->

1\.

\-

\+

\*

* * *

1\. not a list

\- not a list

\+ not a list

\* not a list")).
Proof. vm_compute. reflexivity. Qed.
Example golden_commonmark_metadata : (run (golden_commonmark) (Doc [Other []; Elem (b "html") [] [Elem (b "head") [] [Text (b "
    "); Elem (b "meta") [((b "charset"), (b "UTF-8"))] []; Text (b "

    "); Elem (b "title") [] [Text (b "Page Title")]; Text (b "
  ")]; Text (b "
  "); Elem (b "body") [] [Text (b "
    "); Elem (b "h4") [] [Text (b "Heading A")]; Text (b "

    "); Elem (b "link") [((b "href"), (b "/one.css")); ((b "rel"), (b "stylesheet"))] []; Text (b "
    "); Elem (b "link") [((b "href"), (b "/two.css")); ((b "rel"), (b "stylesheet"))] []; Text (b "

    "); Elem (b "h4") [] [Text (b "Heading B")]; Text (b "

    "); Elem (b "hr") [] []; Text (b "

    "); Elem (b "p") [] [Text (b "\a \* \\")]; Text (b "

    "); Elem (b "p") [] [Text (b "
      "); Elem (b "span") [] [Text (b " .<name> ")]; Text (b "
      "); Elem (b "span") [] [Text (b " .< name >. ")]; Text (b "
      "); Elem (b "span") [] [Text (b " <")]; Elem (b "span") [] [Text (b "name")]; Elem (b "span") [] [Text (b "> ")]; Text (b "
    ")]; Text (b "
    "); Elem (b "p") [] [Text (b "
      2 > 1 "); Elem (b "br") [] []; Text (b "
      1 < 2 "); Elem (b "br") [] []; Text (b "

      A & B "); Elem (b "br") [] []; Text (b "
      A & B "); Elem (b "br") [] []; Text (b "
      &ouml;
    ")]; Text (b "

    "); Elem (b "p") [] [Text (b "
      *not emphasized* "); Elem (b "br") [] []; Text (b "
      <br/> not a tag "); Elem (b "br") [] []; Text (b "
      [not a link](/foo) "); Elem (b "br") [] []; Text (b "
      `not code` "); Elem (b "br") [] []; Text (b "
      1. not a list "); Elem (b "br") [] []; Text (b "
      * not a list "); Elem (b "br") [] []; Text (b "
      # not a heading "); Elem (b "br") [] []; Text (b "
      [foo]: /url ""not a reference"" "); Elem (b "br") [] []; Text (b "
      &ouml; not a character entity
    ")]; Text (b "


    "); Elem (b "p") [] [Text (b "
      Start Line
      "); Elem (b "br") [] []; Elem (b "br") [] []; Elem (b "br") [] []; Text (b "
      "); Elem (b "span") [] [Text (b " ")]; Text (b "
      "); Elem (b "br") [] []; Elem (b "br") [] []; Elem (b "br") [] []; Text (b "
      End Line
    ")]; Text (b "
  

")]]])) = Returned (Done (b "#### Heading A

#### Heading B

* * *

\\a \\* \\\\

.&lt;name&gt; .&lt; name &gt;. &lt;name&gt;

2 &gt; 1  
1 &lt; 2  
A & B  
A & B  
&ouml;

\*not emphasized*  
&lt;br/&gt; not a tag  
\[not a link](/foo)  
\`not code\`  
1\. not a list  
\* not a list  
\# not a heading  
\[foo]: /url ""not a reference""  
&ouml; not a character entity

Start Line

End Line")).
Proof. vm_compute. reflexivity. Qed.
Example golden_strikethrough_strikethrough : (run (golden_strike) (Doc [Elem (b "html") [] [Elem (b "head") [] []; Elem (b "body") [] [Elem (b "del") [] [Text (b "strikethrough content")]; Text (b "

"); Elem (b "p") [] [Text (b "~ ")]; Text (b "
"); Elem (b "p") [] [Text (b "* ")]; Text (b "
")]]])) = Returned (Done (b "~~strikethrough content~~

~

\*")).
Proof. vm_compute. reflexivity. Qed.
Example golden_table_basics : (run (with_table []) (Doc [Elem (b "html") [] [Elem (b "head") [] []; Elem (b "body") [] [Text (b "
  A caption outside a table


"); Elem (b "hr") [] []; Text (b "

"); Comment (b " empty tables "); Text (b "
"); Elem (b "table") [] []; Text (b "

"); Elem (b "table") [] [Text (b "
  "); Elem (b "tbody") [] []; Text (b "
")]; Text (b "

"); Elem (b "table") [] [Text (b "
  "); Elem (b "caption") [] [Text (b "
    The caption text of the empty table
  ")]; Text (b "
  "); Elem (b "thead") [] []; Text (b "
  "); Elem (b "tbody") [] []; Text (b "
")]; Text (b "

"); Elem (b "table") [] [Text (b "
  "); Elem (b "tbody") [] [Text (b "
    "); Elem (b "tr") [] []; Text (b "
    "); Elem (b "tr") [] []; Text (b "
  ")]; Text (b "
")]; Text (b "

"); Elem (b "hr") [] []; Text (b "

"); Comment (b " empty cells "); Text (b "
"); Elem (b "table") [] [Text (b "
  "); Elem (b "tbody") [] [Text (b "
    "); Elem (b "tr") [] [Text (b "
      "); Elem (b "td") [] []; Text (b "
      "); Elem (b "td") [] []; Text (b "
    ")]; Text (b "
    "); Elem (b "tr") [] [Text (b "
      "); Elem (b "td") [] []; Text (b "
      "); Elem (b "td") [] []; Text (b "
    ")]; Text (b "
  ")]; Text (b "
")]; Text (b "

"); Elem (b "table") [] [Text (b "
  "); Elem (b "tbody") [] [Elem (b "tr") [] [Text (b "
    "); Elem (b "td") [] []; Text (b "
    "); Elem (b "td") [] [Text (b "B1")]; Text (b "
  ")]; Text (b "
  "); Elem (b "tr") [] [Text (b "
    "); Elem (b "td") [] []; Text (b "
    "); Elem (b "td") [] []; Text (b "
  ")]; Text (b "
  "); Elem (b "tr") [] [Text (b "
    "); Elem (b "td") [] [Text (b "A3")]; Text (b "
    "); Elem (b "td") [] []; Text (b "
  ")]; Text (b "
")]]; Text (b "

"); Elem (b "hr") [] []; Text (b "

"); Comment (b " basic table "); Text (b "
"); Elem (b "table") [] [Text (b "
  "); Elem (b "tbody") [] [Elem (b "tr") [] [Text (b "
    "); Elem (b "td") [] [Text (b "A1")]; Text (b "
    "); Elem (b "td") [] [Text (b "A2")]; Text (b "
  ")]; Text (b "
  "); Elem (b "tr") [] [Text (b "
    "); Elem (b "td") [] [Text (b "B1")]; Text (b "
    "); Elem (b "td") [] [Text (b "B2")]; Text (b "
  ")]; Text (b "
  "); Elem (b "tr") [] [Text (b "
    "); Elem (b "td") [] [Text (b "C1")]; Text (b "
    "); Elem (b "td") [] [Text (b "C2")]; Text (b "
  ")]; Text (b "
")]]; Text (b "

"); Elem (b "hr") [] []; Text (b "

"); Comment (b " just a heading row "); Text (b "
"); Elem (b "table") [] [Text (b "
  "); Elem (b "thead") [] [Text (b "
    "); Elem (b "tr") [] [Text (b "
      "); Elem (b "th") [((b "scope"), (b "col"))] [Text (b "Name")]; Text (b "
      "); Elem (b "th") [((b "scope"), (b "col"))] [Text (b "City")]; Text (b "
      "); Elem (b "th") [((b "scope"), (b "col"))] [Text (b "Age")]; Text (b "
    ")]; Text (b "
  ")]; Text (b "
")]; Text (b "

"); Elem (b "hr") [] []; Text (b "

"); Comment (b " table with th (Table Header) element "); Text (b "
"); Elem (b "table") [] [Text (b "
  "); Elem (b "tbody") [] [Elem (b "tr") [] [Text (b "
    "); Elem (b "th") [] [Text (b "Company")]; Text (b "
    "); Elem (b "th") [] [Text (b "Contact")]; Text (b "
    "); Elem (b "th") [] [Text (b "Country")]; Text (b "
  ")]; Text (b "
  "); Elem (b "tr") [] [Text (b "
    "); Elem (b "td") [] [Text (b "Company A")]; Text (b "
    "); Elem (b "td") [] [Text (b "Max Mustermann")]; Text (b "
    "); Elem (b "td") [] [Text (b "DE")]; Text (b "
  ")]; Text (b "
  "); Elem (b "tr") [] [Text (b "
    "); Elem (b "td") [] [Text (b "Company B")]; Text (b "
    "); Elem (b "td") [] [Text (b "John Doe")]; Text (b "
    "); Elem (b "td") [] [Text (b "US")]; Text (b "
  ")]; Text (b "
")]]; Text (b "

"); Elem (b "hr") [] []; Text (b "

"); Comment (b " with thead and caption "); Text (b "
"); Elem (b "table") [] [Text (b "
  "); Elem (b "caption") [] [Text (b "
    A description about the
    "); Elem (b "code") [] [Text (b "table")]; Text (b "
  ")]; Text (b "
  "); Elem (b "thead") [] [Text (b "
    "); Elem (b "tr") [] [Text (b "
      "); Elem (b "th") [((b "scope"), (b "col"))] [Text (b "Name")]; Text (b "
      "); Elem (b "th") [((b "scope"), (b "col"))] [Text (b "City")]; Text (b "
      "); Elem (b "th") [((b "scope"), (b "col"))] [Text (b "Age")]; Text (b "
    ")]; Text (b "
  ")]; Text (b "
  "); Elem (b "tbody") [] [Text (b "
    "); Elem (b "tr") [] [Text (b "
      "); Elem (b "th") [((b "scope"), (b "row"))] [Text (b "Max Mustermann")]; Text (b "
      "); Elem (b "td") [] [Text (b "Berlin")]; Text (b "
      "); Elem (b "td") [] [Text (b "20")]; Text (b "
      "); Elem (b "td") [] [Text (b "space for the note")]; Text (b "
    ")]; Text (b "
    "); Elem (b "tr") [] [Text (b "
      "); Elem (b "th") [((b "scope"), (b "row"))] [Text (b "Max Müller")]; Text (b "
      "); Elem (b "td") [] [Text (b "München")]; Text (b "
      "); Elem (b "td") [] [Text (b "30")]; Text (b "
    ")]; Text (b "
    "); Elem (b "tr") [] [Text (b "
      "); Elem (b "th") [((b "scope"), (b "row"))] [Text (b "Peter Mustermann")]; Text (b "
      "); Elem (b "td") [] [Text (b "München")]; Text (b "
      "); Comment (b " no td "); Text (b "
    ")]; Text (b "
  ")]; Text (b "
  "); Elem (b "tfoot") [] [Text (b "
    "); Elem (b "tr") [] [Text (b "
      "); Elem (b "th") [((b "scope"), (b "row")); ((b "colspan"), (b "2"))] [Text (b "Average age")]; Text (b "
      "); Elem (b "td") [] [Text (b "25")]; Text (b "
    ")]; Text (b "
  ")]; Text (b "
")]; Text (b "

"); Elem (b "hr") [] []; Text (b "

"); Comment (b " with align "); Text (b "
"); Elem (b "table") [] [Text (b "
  "); Elem (b "thead") [] [Text (b "
    "); Elem (b "tr") [] [Text (b "
      "); Elem (b "th") [((b "align"), (b "left"))] [Text (b "Left")]; Text (b "
      "); Elem (b "th") [((b "align"), (b "center"))] [Text (b "Center")]; Text (b "
      "); Elem (b "th") [((b "align"), (b "right"))] [Text (b "Right")]; Text (b "
    ")]; Text (b "
  ")]; Text (b "
  "); Elem (b "tbody") [] [Text (b "
    "); Elem (b "tr") [] [Text (b "
      "); Elem (b "td") [] [Text (b "A")]; Text (b "
      "); Elem (b "td") [] [Text (b "B")]; Text (b "
      "); Elem (b "td") [] [Text (b "C")]; Text (b "
    ")]; Text (b "
  ")]; Text (b "
")]; Text (b "

"); Elem (b "table") [] [Text (b "
  "); Elem (b "tbody") [] [Elem (b "tr") [] [Text (b "
    "); Elem (b "td") [((b "align"), (b "left"))] [Text (b "Left")]; Text (b "
    "); Elem (b "td") [((b "align"), (b "center"))] [Text (b "Center")]; Text (b "
    "); Elem (b "td") [((b "align"), (b "right"))] [Text (b "Right")]; Text (b "
  ")]; Text (b "
  "); Elem (b "tr") [] [Text (b "
    "); Elem (b "td") [] [Text (b "A")]; Text (b "
    "); Elem (b "td") [] [Text (b "B")]; Text (b "
    "); Elem (b "td") [] [Text (b "C")]; Text (b "
  ")]; Text (b "
")]]; Text (b "

"); Elem (b "table") [] [Text (b "
  "); Elem (b "tbody") [] [Elem (b "tr") [] [Text (b "
    "); Elem (b "td") [((b "align"), (b "left"))] []; Text (b "
    "); Elem (b "td") [((b "align"), (b "center"))] []; Text (b "
    "); Elem (b "td") [((b "align"), (b "right"))] []; Text (b "
  ")]; Text (b "
  "); Elem (b "tr") [] [Text (b "
    "); Elem (b "td") [] []; Text (b "
    "); Elem (b "td") [] []; Text (b "
    "); Elem (b "td") [] []; Text (b "
  ")]; Text (b "
")]]; Text (b "

"); Elem (b "hr") [] []; Text (b "

"); Elem (b "p") [] [Text (b "A | B")]; Text (b "

"); Comment (b " with special markdown characters "); Text (b "
"); Elem (b "table") [] [Text (b "
  "); Elem (b "thead") [] [Text (b "
    "); Elem (b "tr") [] [Text (b "
      "); Elem (b "th") [] [Text (b "A (B) C")]; Text (b "
      "); Elem (b "th") [] [Text (b "A **B** C")]; Text (b "
    ")]; Text (b "
  ")]; Text (b "
  "); Elem (b "tbody") [] [Text (b "
    "); Elem (b "tr") [] [Text (b "
      "); Elem (b "th") [] [Text (b "A (B)")]; Text (b "
      "); Elem (b "th") [] [Text (b "A *B*")]; Text (b "
    ")]; Text (b "
    "); Elem (b "tr") [] [Text (b "
      "); Elem (b "th") [] [Text (b "A | B")]; Text (b "
    ")]; Text (b "
  ")]; Text (b "
")]; Text (b "

"); Elem (b "hr") [] []; Text (b "

"); Comment (b " skip table for role ""presentation"" "); Text (b "
"); Elem (b "table") [((b "role"), (b "presentation"))] [Text (b "
  "); Elem (b "tbody") [] [Elem (b "tr") [] [Text (b "
    "); Elem (b "td") [] [Text (b "A1")]; Text (b "
    "); Elem (b "td") [] [Text (b "A2")]; Text (b "
  ")]; Text (b "
  "); Elem (b "tr") [] [Text (b "
    "); Elem (b "td") [] [Text (b "B1")]; Text (b "
    "); Elem (b "td") [] [Text (b "B2")]; Text (b "
  ")]; Text (b "
")]]; Text (b "
")]]])) = Returned (Done (b "A caption outside a table

* * *

The caption text of the empty table

* * *

|   |   |
|---|---|
|   |   |
|   |   |

|    |    |
|----|----|
|    | B1 |
|    |    |
| A3 |    |

* * *

|    |    |
|----|----|
| A1 | A2 |
| B1 | B2 |
| C1 | C2 |

* * *

| Name | City | Age |
|------|------|-----|

* * *

| Company   | Contact        | Country |
|-----------|----------------|---------|
| Company A | Max Mustermann | DE      |
| Company B | John Doe       | US      |

* * *

| Name             | City    | Age |                    |
|------------------|---------|-----|--------------------|
| Max Mustermann   | Berlin  | 20  | space for the note |
| Max Müller       | München | 30  |                    |
| Peter Mustermann | München |     |                    |
| Average age      |         | 25  |                    |

A description about the `table`

* * *

| Left | Center | Right |
|:-----|:------:|------:|
| A    | B      | C     |

|      |        |       |
|:-----|:------:|------:|
| Left | Center | Right |
| A    | B      | C     |

|   |   |   |
|:--|:-:|--:|
|   |   |   |
|   |   |   |

* * *

A | B

| A (B) C | A \*\*B\** C |
|---------|--------------|
| A (B)   | A \*B*       |
| A \| B  |              |

* * *

A1 A2 

B1 B2")).
Proof. vm_compute. reflexivity. Qed.
Example golden_table_col_row_span : (run (with_table []) (Doc [Comment (b " arguments "); Elem (b "html") [] [Elem (b "head") [] []; Elem (b "body") [] [Elem (b "table") [] [Text (b "
  "); Elem (b "tbody") [] [Elem (b "tr") [] [Text (b "
    "); Elem (b "td") [((b "colspan"), [])] [Text (b "A1")]; Text (b "
    "); Elem (b "td") [((b "colspan"), (b "x"))] [Text (b "B1")]; Text (b "
    "); Elem (b "td") [((b "colspan"), (b "-5"))] [Text (b "C1")]; Text (b "
  ")]; Text (b "
")]]; Text (b "

"); Elem (b "hr") [] []; Text (b "

"); Comment (b " colspan "); Text (b "
"); Elem (b "table") [] [Text (b "
  "); Elem (b "tbody") [] [Elem (b "tr") [] [Text (b "
    "); Elem (b "td") [((b "colspan"), (b "2"))] [Text (b "wide cell")]; Text (b "
    "); Comment (b " here "); Text (b "
    "); Elem (b "td") [] [Text (b "B1")]; Text (b "
  ")]; Text (b "
  "); Elem (b "tr") [] [Text (b "
    "); Elem (b "td") [] [Text (b "A2")]; Text (b "
    "); Elem (b "td") [] [Text (b "B2")]; Text (b "
    "); Elem (b "td") [] [Text (b "C2")]; Text (b "
  ")]; Text (b "
")]]; Text (b "

"); Comment (b " rowspan "); Text (b "
"); Elem (b "table") [] [Text (b "
  "); Elem (b "tbody") [] [Elem (b "tr") [] [Text (b "
    "); Elem (b "td") [((b "rowspan"), (b "2"))] [Text (b "tall cell")]; Text (b "
    "); Elem (b "td") [] [Text (b "B1")]; Text (b "
    "); Elem (b "td") [] [Text (b "C1")]; Text (b "
  ")]; Text (b "
  "); Elem (b "tr") [] [Text (b "
    "); Comment (b " here "); Text (b "
    "); Elem (b "td") [] [Text (b "A2")]; Text (b "
    "); Elem (b "td") [] [Text (b "B2")]; Text (b "
  ")]; Text (b "
  "); Elem (b "tr") [] [Text (b "
    "); Elem (b "td") [] [Text (b "A3")]; Text (b "
    "); Elem (b "td") [] [Text (b "B3")]; Text (b "
    "); Elem (b "td") [] [Text (b "C3")]; Text (b "
  ")]; Text (b "
")]]; Text (b "

"); Comment (b " rowspan & colspan "); Text (b "
"); Elem (b "table") [] [Text (b "
  "); Elem (b "tbody") [] [Elem (b "tr") [] [Text (b "
    "); Elem (b "td") [((b "rowspan"), (b "2")); ((b "colspan"), (b "2"))] [Text (b "big cell")]; Text (b "
    "); Comment (b " here "); Text (b "
    "); Elem (b "td") [] [Text (b "B1")]; Text (b "
  ")]; Text (b "
  "); Elem (b "tr") [] [Text (b "
    "); Comment (b " here "); Text (b "
    "); Comment (b " here "); Text (b "
    "); Elem (b "td") [] [Text (b "A2")]; Text (b "
  ")]; Text (b "
  "); Elem (b "tr") [] [Text (b "
    "); Elem (b "td") [] [Text (b "A3")]; Text (b "
    "); Elem (b "td") [] [Text (b "B3")]; Text (b "
    "); Elem (b "td") [] [Text (b "C3")]; Text (b "
  ")]; Text (b "
")]]; Text (b "
")]]])) = Returned (Done (b "|    |    |    |
|----|----|----|
| A1 | B1 | C1 |

* * *

|           |    |    |
|-----------|----|----|
| wide cell |    | B1 |
| A2        | B2 | C2 |

|           |    |    |
|-----------|----|----|
| tall cell | B1 | C1 |
|           | A2 | B2 |
| A3        | B3 | C3 |

|          |    |    |
|----------|----|----|
| big cell |    | B1 |
|          |    | A2 |
| A3       | B3 | C3 |")).
Proof. vm_compute. reflexivity. Qed.
Example golden_table_contents : (run (with_table []) (Doc [Comment (b " basic table with inline content "); Elem (b "html") [] [Elem (b "head") [] []; Elem (b "body") [] [Elem (b "table") [] [Text (b "
  "); Elem (b "tbody") [] [Elem (b "tr") [] [Text (b "
    "); Elem (b "td") [] [Text (b "
      "); Elem (b "strong") [] [Text (b "A1")]; Text (b "
    ")]; Text (b "
    "); Elem (b "td") [] [Text (b "
      "); Elem (b "i") [] [Text (b "B1")]; Text (b "
    ")]; Text (b "
  ")]; Text (b "
  "); Elem (b "tr") [] [Text (b "
    "); Elem (b "td") [] [Text (b "
      "); Elem (b "code") [] [Text (b "A2")]; Text (b "
    ")]; Text (b "
    "); Elem (b "td") [] [Text (b "
      "); Elem (b "a") [((b "href"), (b "/"))] [Text (b "B2")]; Text (b "
    ")]; Text (b "
  ")]; Text (b "
")]]; Text (b "

"); Elem (b "hr") [] []; Text (b "

"); Elem (b "table") [] [Text (b "
  "); Elem (b "tbody") [] [Elem (b "tr") [] [Text (b "
    "); Elem (b "td") [] [Text (b "
      with break after
      "); Elem (b "br") [] []; Text (b "
    ")]; Text (b "
  ")]; Text (b "
  "); Elem (b "tr") [] [Text (b "
    "); Elem (b "td") [] [Text (b "
      "); Elem (b "br") [] []; Text (b "
      with break before
    ")]; Text (b "
  ")]; Text (b "
  "); Elem (b "tr") [] [Text (b "
    "); Elem (b "td") [] [Text (b "
      "); Elem (b "br") [] []; Elem (b "br") [] []; Elem (b "br") [] []; Text (b "
      with break around
      "); Elem (b "br") [] []; Elem (b "br") [] []; Elem (b "br") [] []; Text (b "
    ")]; Text (b "
  ")]; Text (b "
")]]; Text (b "

"); Elem (b "hr") [] []; Text (b "
"); Comment (b " yes: we can keep rendering a table (even though it contains a block node) "); Text (b "

"); Elem (b "table") [] [Text (b "
  "); Elem (b "tbody") [] [Elem (b "tr") [] [Text (b "
    "); Elem (b "td") [] [Elem (b "p") [] [Text (b "Some normal content")]]; Text (b "
  ")]; Text (b "
")]]; Text (b "

"); Elem (b "table") [] [Text (b "
  "); Elem (b "tbody") [] [Elem (b "tr") [] [Text (b "
    "); Elem (b "td") [] [Elem (b "div") [] [Text (b "Some normal content")]]; Text (b "
  ")]; Text (b "
")]]; Text (b "

"); Elem (b "table") [] [Text (b "
  "); Elem (b "tbody") [] [Elem (b "tr") [] [Text (b "
    "); Elem (b "td") [] [Text (b "
      "); Elem (b "article") [] [Text (b "
        "); Elem (b "p") [] [Text (b "Some normal content")]; Text (b "
      ")]; Text (b "
    ")]; Text (b "
  ")]; Text (b "
")]]; Text (b "

"); Elem (b "hr") [] []; Text (b "
"); Comment (b " no: we cannot keep rendering a table "); Text (b "

"); Elem (b "table") [] [Text (b "
  "); Elem (b "tbody") [] [Elem (b "tr") [] [Text (b "
    "); Elem (b "td") [] [Text (b "The content"); Elem (b "br") [] []; Text (b "with break")]; Text (b "
  ")]; Text (b "
")]]; Text (b "

"); Elem (b "table") [] [Text (b "
  "); Elem (b "tbody") [] [Elem (b "tr") [] [Text (b "
    "); Elem (b "td") [] [Elem (b "h1") [] [Text (b "Heading")]]; Text (b "
  ")]; Text (b "
")]]; Text (b "

"); Elem (b "table") [] [Text (b "
  "); Elem (b "tbody") [] [Elem (b "tr") [] [Text (b "
    "); Elem (b "td") [] [Elem (b "h1") [] []]; Text (b "
    "); Elem (b "td") [] [Text (b "not the empty heading")]; Text (b "
  ")]; Text (b "
")]]; Text (b "

"); Elem (b "table") [] [Text (b "
  "); Elem (b "tbody") [] [Elem (b "tr") [] [Text (b "
    "); Elem (b "td") [] [Elem (b "hr") [] []]; Text (b "
  ")]; Text (b "
")]]; Text (b "

"); Elem (b "table") [] [Text (b "
  "); Elem (b "tbody") [] [Elem (b "tr") [] [Text (b "
    "); Elem (b "td") [] [Text (b "
      "); Elem (b "pre") [] [Text (b "Code block")]; Text (b "
    ")]; Text (b "
  ")]; Text (b "
")]]; Text (b "

"); Elem (b "table") [] [Text (b "
  "); Elem (b "tbody") [] [Elem (b "tr") [] [Text (b "
    "); Elem (b "td") [] [Text (b "
      "); Elem (b "blockquote") [] [Text (b "Blockquote")]; Text (b "
    ")]; Text (b "
  ")]; Text (b "
")]]; Text (b "

"); Elem (b "table") [] [Text (b "
  "); Elem (b "tbody") [] [Elem (b "tr") [] [Text (b "
    "); Elem (b "td") [] [Text (b "
      "); Elem (b "ul") [] [Text (b "
        "); Elem (b "li") [] [Text (b "Unordered List")]; Text (b "
      ")]; Text (b "
    ")]; Text (b "
  ")]; Text (b "
")]]; Text (b "

"); Elem (b "table") [] [Text (b "
  "); Elem (b "tbody") [] [Elem (b "tr") [] [Text (b "
    "); Elem (b "td") [] [Text (b "
      "); Elem (b "ol") [] [Text (b "
        "); Elem (b "li") [] [Text (b "Ordered List")]; Text (b "
      ")]; Text (b "
    ")]; Text (b "
  ")]; Text (b "
")]]; Text (b "

"); Elem (b "hr") [] []; Text (b "

"); Comment (b " nested table #1 "); Text (b "
"); Elem (b "table") [] [Text (b "
  "); Elem (b "tbody") [] [Elem (b "tr") [] [Text (b "
    "); Elem (b "td") [] [Text (b "
      "); Elem (b "table") [] [Text (b "
        "); Elem (b "tbody") [] [Elem (b "tr") [] [Text (b "
          "); Elem (b "td") [] [Text (b "Nested Table")]; Text (b "
        ")]; Text (b "
      ")]]; Text (b "
    ")]; Text (b "
  ")]; Text (b "
")]]; Text (b "

"); Elem (b "hr") [] []; Text (b "

"); Comment (b " nested table #2 "); Text (b "
"); Elem (b "table") [] [Text (b "
  "); Elem (b "tbody") [] [Elem (b "tr") [] [Text (b "
    "); Elem (b "td") [] [Text (b "Other cell")]; Text (b "
    "); Elem (b "td") [] [Text (b "
      "); Elem (b "table") [] [Text (b "
        "); Elem (b "tbody") [] [Elem (b "tr") [] [Text (b "
          "); Elem (b "td") [] [Text (b "Nested Table")]; Text (b "
        ")]; Text (b "
      ")]]; Text (b "
    ")]; Text (b "
    "); Elem (b "td") [] [Text (b "Another cell")]; Text (b "
  ")]; Text (b "
")]]; Text (b "
")]]])) = Returned (Done (b "|        |         |
|--------|---------|
| **A1** | *B1*    |
| `A2`   | [B2](/) |

* * *

|                   |
|-------------------|
| with break after  |
| with break before |
| with break around |

* * *

|                     |
|---------------------|
| Some normal content |

|                     |
|---------------------|
| Some normal content |

|                     |
|---------------------|
| Some normal content |

* * *

The content  
with break

# Heading

not the empty heading

* * *

```
Code block
```

> Blockquote

- Unordered List

<!--THE END-->

1. Ordered List

* * *

|              |
|--------------|
| Nested Table |

* * *

Other cell

|              |
|--------------|
| Nested Table |

Another cell")).
Proof. vm_compute. reflexivity. Qed.
Example golden_table_email : (run (with_table []) (Doc [Other []; Elem (b "html") [] [Elem (b "head") [] []; Elem (b "body") [] [Text (b "
    "); Elem (b "div") [((b "style"), [])] [Text (b "
      "); Comment (b "[if mso | IE]><table align=""center"" border=""0"" cellpadding=""0"" cellspacing=""0"" class="""" style=""width:600px;"" width=""600"" ><tr><td style=""line-height:0px;font-size:0px;mso-line-height-rule:exactly;""><![endif]"); Text (b "
      "); Elem (b "div") [((b "style"), (b "margin: 0px auto; max-width: 600px"))] [Text (b "
        "); Elem (b "table") [((b "align"), (b "center")); ((b "border"), (b "0")); ((b "cellpadding"), (b "0")); ((b "cellspacing"), (b "0")); ((b "role"), (b "presentation")); ((b "style"), (b "width: 100%"))] [Text (b "
          "); Elem (b "tbody") [] [Text (b "
            "); Elem (b "tr") [] [Text (b "
              "); Elem (b "td") [((b "style"), (b "
                  direction: ltr;
                  font-size: 0px;
                  padding: 20px 0;
                  text-align: center;
                "))] [Text (b "
                "); Comment (b "[if mso | IE]><table role=""presentation"" border=""0"" cellpadding=""0"" cellspacing=""0""><tr><td class="""" style=""vertical-align:top;width:600px;"" ><![endif]"); Text (b "
                "); Elem (b "div") [((b "class"), (b "mj-column-per-100 mj-outlook-group-fix")); ((b "style"), (b "
                    font-size: 0px;
                    text-align: left;
                    direction: ltr;
                    display: inline-block;
                    vertical-align: top;
                    width: 100%;
                  "))] [Text (b "
                  "); Elem (b "table") [((b "border"), (b "0")); ((b "cellpadding"), (b "0")); ((b "cellspacing"), (b "0")); ((b "role"), (b "presentation")); ((b "style"), (b "vertical-align: top")); ((b "width"), (b "100%"))] [Text (b "
                    "); Elem (b "tbody") [] [Text (b "
                      "); Elem (b "tr") [] [Text (b "
                        "); Elem (b "td") [((b "align"), (b "center")); ((b "style"), (b "
                            font-size: 0px;
                            padding: 10px 25px;
                            word-break: break-word;
                          "))] [Text (b "
                          "); Elem (b "table") [((b "border"), (b "0")); ((b "cellpadding"), (b "0")); ((b "cellspacing"), (b "0")); ((b "role"), (b "presentation")); ((b "style"), (b "
                              border-collapse: collapse;
                              border-spacing: 0px;
                            "))] [Text (b "
                            "); Elem (b "tbody") [] [Text (b "
                              "); Elem (b "tr") [] [Text (b "
                                "); Elem (b "td") [((b "style"), (b "width: 100px"))] [Text (b "
                                  "); Elem (b "img") [((b "height"), (b "auto")); ((b "src"), (b "/assets/picture.png")); ((b "style"), (b "
                                      border: 0;
                                      display: block;
                                      outline: none;
                                      text-decoration: none;
                                      height: auto;
                                      width: 100%;
                                      font-size: 13px;
                                    ")); ((b "width"), (b "100"))] []; Text (b "
                                ")]; Text (b "
                              ")]; Text (b "
                            ")]; Text (b "
                          ")]; Text (b "
                        ")]; Text (b "
                      ")]; Text (b "
                      "); Elem (b "tr") [] [Text (b "
                        "); Elem (b "td") [((b "align"), (b "center")); ((b "style"), (b "
                            font-size: 0px;
                            padding: 10px 25px;
                            word-break: break-word;
                          "))] [Text (b "
                          "); Elem (b "p") [((b "style"), (b "
                              border-top: solid 4px red;
                              font-size: 1px;
                              margin: 0px auto;
                              width: 100%;
                            "))] []; Text (b "
                          "); Comment (b "[if mso | IE
                            ]><table
                              align=""center""
                              border=""0""
                              cellpadding=""0""
                              cellspacing=""0""
                              style=""
                                border-top: solid 4px red;
                                font-size: 1px;
                                margin: 0px auto;
                                width: 550px;
                              ""
                              role=""presentation""
                              width=""550px""
                            >
                              <tr>
                                <td style=""height: 0; line-height: 0"">
                                  &nbsp;
                                </td>
                              </tr>
                            </table><!
                          [endif]"); Text (b "
                        ")]; Text (b "
                      ")]; Text (b "
                      "); Elem (b "tr") [] [Text (b "
                        "); Elem (b "td") [((b "align"), (b "left")); ((b "style"), (b "
                            font-size: 0px;
                            padding: 10px 25px;
                            word-break: break-word;
                          "))] [Text (b "
                          "); Elem (b "div") [((b "style"), (b "
                              font-family: Ubuntu, Helvetica, Arial, sans-serif;
                              font-size: 13px;
                              line-height: 1;
                              text-align: left;
                              color: #000000;
                            "))] [Text (b "
                            normal body content
                          ")]; Text (b "
                        ")]; Text (b "
                      ")]; Text (b "
                    ")]; Text (b "
                  ")]; Text (b "
                ")]; Text (b "
                "); Comment (b "[if mso | IE]></td></tr></table><![endif]"); Text (b "
              ")]; Text (b "
            ")]; Text (b "
          ")]; Text (b "
        ")]; Text (b "
      ")]; Text (b "
      "); Comment (b "[if mso | IE]></td></tr></table><table align=""center"" border=""0"" cellpadding=""0"" cellspacing=""0"" class="""" style=""width:600px;"" width=""600"" ><tr><td style=""line-height:0px;font-size:0px;mso-line-height-rule:exactly;""><![endif]"); Text (b "
      "); Elem (b "div") [((b "style"), (b "margin: 0px auto; max-width: 600px"))] [Text (b "
        "); Elem (b "table") [((b "align"), (b "center")); ((b "border"), (b "0")); ((b "cellpadding"), (b "0")); ((b "cellspacing"), (b "0")); ((b "role"), (b "presentation")); ((b "style"), (b "width: 100%"))] [Text (b "
          "); Elem (b "tbody") [] [Text (b "
            "); Elem (b "tr") [] [Text (b "
              "); Elem (b "td") [((b "style"), (b "
                  direction: ltr;
                  font-size: 0px;
                  padding: 20px 0;
                  text-align: center;
                "))] [Text (b "
                "); Comment (b "[if mso | IE]><table role=""presentation"" border=""0"" cellpadding=""0"" cellspacing=""0""><tr><td class="""" style=""vertical-align:top;width:600px;"" ><![endif]"); Text (b "
                "); Elem (b "div") [((b "class"), (b "mj-column-per-100 mj-outlook-group-fix")); ((b "style"), (b "
                    font-size: 0px;
                    text-align: left;
                    direction: ltr;
                    display: inline-block;
                    vertical-align: top;
                    width: 100%;
                  "))] [Text (b "
                  "); Elem (b "table") [((b "border"), (b "0")); ((b "cellpadding"), (b "0")); ((b "cellspacing"), (b "0")); ((b "role"), (b "presentation")); ((b "style"), (b "vertical-align: top")); ((b "width"), (b "100%"))] [Text (b "
                    "); Elem (b "tbody") [] [Text (b "
                      "); Elem (b "tr") [] [Text (b "
                        "); Elem (b "td") [((b "align"), (b "left")); ((b "style"), (b "
                            font-size: 0px;
                            padding: 10px 25px;
                            word-break: break-word;
                          "))] [Text (b "
                          "); Elem (b "table") [((b "cellpadding"), (b "0")); ((b "cellspacing"), (b "0")); ((b "width"), (b "100%")); ((b "border"), (b "0")); ((b "style"), (b "
                              color: #000000;
                              font-family: Ubuntu, Helvetica, Arial, sans-serif;
                              font-size: 13px;
                              line-height: 22px;
                              table-layout: auto;
                              width: 100%;
                              border: none;
                            "))] [Text (b "
                            "); Elem (b "tbody") [] [Elem (b "tr") [] [Text (b "
                              "); Elem (b "th") [] [Text (b "A1")]; Text (b "
                              "); Elem (b "th") [] [Text (b "A2")]; Text (b "
                            ")]; Text (b "
                            "); Elem (b "tr") [] [Text (b "
                              "); Elem (b "td") [] [Text (b "B1")]; Text (b "
                              "); Elem (b "td") [] [Text (b "B2")]; Text (b "
                            ")]; Text (b "
                          ")]]; Text (b "
                        ")]; Text (b "
                      ")]; Text (b "
                    ")]; Text (b "
                  ")]; Text (b "
                ")]; Text (b "
                "); Comment (b "[if mso | IE]></td></tr></table><![endif]"); Text (b "
              ")]; Text (b "
            ")]; Text (b "
          ")]; Text (b "
        ")]; Text (b "
      ")]; Text (b "
      "); Comment (b "[if mso | IE]></td></tr></table><![endif]"); Text (b "
    ")]; Text (b "
  

")]]])) = Returned (Done (b "![](/assets/picture.png)

normal body content

| A1 | A2 |
|----|----|
| B1 | B2 |")).
Proof. vm_compute. reflexivity. Qed.
Example golden_table_parents : (run (with_table []) (Doc [Comment (b " these parents do work "); Elem (b "html") [] [Elem (b "head") [] []; Elem (b "body") [] [Elem (b "blockquote") [] [Text (b "
  The blockquote content:

  "); Elem (b "table") [] [Text (b "
    "); Elem (b "tbody") [] [Elem (b "tr") [] [Text (b "
      "); Elem (b "td") [] [Text (b "A1")]; Text (b "
      "); Elem (b "td") [] [Text (b "A2")]; Text (b "
    ")]; Text (b "
  ")]]; Text (b "
")]; Text (b "

"); Elem (b "hr") [] []; Text (b "

"); Elem (b "ol") [((b "start"), (b "10"))] [Text (b "
  "); Elem (b "li") [] [Text (b "The list item content")]; Text (b "
  "); Elem (b "li") [] [Text (b "
    "); Elem (b "table") [] [Text (b "
      "); Elem (b "tbody") [] [Elem (b "tr") [] [Text (b "
        "); Elem (b "td") [] [Text (b "A1")]; Text (b "
        "); Elem (b "td") [] [Text (b "A2")]; Text (b "
      ")]; Text (b "
    ")]]; Text (b "
  ")]; Text (b "
")]; Text (b "

"); Elem (b "div") [] [Text (b "
  "); Elem (b "span") [] [Text (b "
    "); Elem (b "table") [] [Text (b "
      "); Elem (b "tbody") [] [Elem (b "tr") [] [Text (b "
        "); Elem (b "td") [] [Text (b "A1")]; Text (b "
        "); Elem (b "td") [] [Text (b "A2")]; Text (b "
      ")]; Text (b "
    ")]]; Text (b "
  ")]; Text (b "
")]; Text (b "

"); Elem (b "hr") [] []; Text (b "

"); Comment (b " these parents unfortunately do NOT work (unless you reorder the nodes) "); Text (b "

"); Elem (b "a") [((b "href"), (b "/link"))] [Text (b "
  link content before
  "); Elem (b "table") [] [Text (b "
    "); Elem (b "tbody") [] [Elem (b "tr") [] [Text (b "
      "); Elem (b "td") [] [Text (b "A1")]; Text (b "
      "); Elem (b "td") [] [Text (b "A2")]; Text (b "
    ")]; Text (b "
  ")]]; Text (b "
  link content after
")]; Text (b "

"); Elem (b "hr") [] []; Text (b "

"); Elem (b "a") [((b "href"), (b "/link"))] [Text (b "
  "); Elem (b "div") [] [Text (b "
    "); Elem (b "blockquote") [] [Text (b "
      "); Elem (b "table") [] [Text (b "
        "); Elem (b "tbody") [] [Elem (b "tr") [] [Text (b "
          "); Elem (b "td") [] [Text (b "A1")]; Text (b "
          "); Elem (b "td") [] [Text (b "A2")]; Text (b "
        ")]; Text (b "
      ")]]; Text (b "
    ")]; Text (b "
  ")]; Text (b "
")]; Text (b "

"); Elem (b "hr") [] []; Text (b "

"); Elem (b "strong") [] [Text (b "
  bold content before
  "); Elem (b "table") [] [Text (b "
    "); Elem (b "tbody") [] [Elem (b "tr") [] [Text (b "
      "); Elem (b "td") [] [Text (b "A1")]; Text (b "
      "); Elem (b "td") [] [Text (b "A2")]; Text (b "
    ")]; Text (b "
  ")]]; Text (b "
  bold content after
")]; Text (b "

"); Elem (b "hr") [] []; Text (b "

"); Elem (b "i") [] [Text (b "
  "); Elem (b "span") [] [Text (b "italic content before")]; Text (b "
  "); Elem (b "blockquote") [] [Text (b "
    blockquote content before
    "); Elem (b "table") [] [Text (b "
      "); Elem (b "tbody") [] [Elem (b "tr") [] [Text (b "
        "); Elem (b "td") [] [Text (b "A1")]; Text (b "
        "); Elem (b "td") [] [Text (b "A2")]; Text (b "
      ")]; Text (b "
    ")]]; Text (b "
    blockquote content after
  ")]; Text (b "
  "); Elem (b "span") [] [Text (b "italic content after")]; Text (b "
")]; Text (b "

"); Elem (b "hr") [] []; Text (b "

"); Elem (b "button") [] [Text (b "
  button content before
  "); Elem (b "table") [] [Text (b "
    "); Elem (b "tbody") [] [Elem (b "tr") [] [Text (b "
      "); Elem (b "td") [] [Text (b "A1")]; Text (b "
      "); Elem (b "td") [] [Text (b "A2")]; Text (b "
    ")]; Text (b "
  ")]]; Text (b "
  button content after
")]; Text (b "
")]]])) = Returned (Done (b "> The blockquote content:
> 
> |    |    |
> |----|----|
> | A1 | A2 |

* * *

10. The list item content
11. |    |    |
    |----|----|
    | A1 | A2 |

|    |    |
|----|----|
| A1 | A2 |

* * *

[link content before  
\
A1 A2  
\
link content after](/link)

* * *

[""  
\
A1 A2  
\
""](/link)

* * *

**bold content before**

**A1 A2**

**bold content after**

* * *

*italic content before "" blockquote content before*

*A1 A2*

*blockquote content after "" italic content after*

* * *

button content before

|    |    |
|----|----|
| A1 | A2 |

button content after")).
Proof. vm_compute. reflexivity. Qed.
Example option_0 : (run (with_config {| em_delimiter := (b "_"); strong_delimiter := []; horizontal_rule := []; bullet_marker := []; disable_end_comment := false; code_fence_opt := []; heading_style := []; link_style := []; link_empty_href := []; link_empty_content := [] |}) (Doc [Elem (b "html") [] [Elem (b "head") [] []; Elem (b "body") [] [Elem (b "em") [] [Text (b "italic")]]]])) = Returned (Done (b "_italic_")).
Proof. vm_compute. reflexivity. Qed.
Example option_1 : (run (with_config {| em_delimiter := []; strong_delimiter := (b "__"); horizontal_rule := []; bullet_marker := []; disable_end_comment := false; code_fence_opt := []; heading_style := []; link_style := []; link_empty_href := []; link_empty_content := [] |}) (Doc [Elem (b "html") [] [Elem (b "head") [] []; Elem (b "body") [] [Elem (b "b") [] [Text (b "bold")]]]])) = Returned (Done (b "__bold__")).
Proof. vm_compute. reflexivity. Qed.
Example option_2 : (run (with_config {| em_delimiter := []; strong_delimiter := []; horizontal_rule := (b "***"); bullet_marker := []; disable_end_comment := false; code_fence_opt := []; heading_style := []; link_style := []; link_empty_href := []; link_empty_content := [] |}) (Doc [Elem (b "html") [] [Elem (b "head") [] []; Elem (b "body") [] [Elem (b "hr") [] []]]])) = Returned (Done (b "***")).
Proof. vm_compute. reflexivity. Qed.
Example option_3 : (run (with_config {| em_delimiter := []; strong_delimiter := []; horizontal_rule := (b "******"); bullet_marker := []; disable_end_comment := false; code_fence_opt := []; heading_style := []; link_style := []; link_empty_href := []; link_empty_content := [] |}) (Doc [Elem (b "html") [] [Elem (b "head") [] []; Elem (b "body") [] [Elem (b "hr") [] []]]])) = Returned (Done (b "******")).
Proof. vm_compute. reflexivity. Qed.
Example option_4 : (run (with_config {| em_delimiter := []; strong_delimiter := []; horizontal_rule := (b "---"); bullet_marker := []; disable_end_comment := false; code_fence_opt := []; heading_style := []; link_style := []; link_empty_href := []; link_empty_content := [] |}) (Doc [Elem (b "html") [] [Elem (b "head") [] []; Elem (b "body") [] [Elem (b "hr") [] []]]])) = Returned (Done (b "---")).
Proof. vm_compute. reflexivity. Qed.
Example option_5 : (run (with_config {| em_delimiter := []; strong_delimiter := []; horizontal_rule := (b "___"); bullet_marker := []; disable_end_comment := false; code_fence_opt := []; heading_style := []; link_style := []; link_empty_href := []; link_empty_content := [] |}) (Doc [Elem (b "html") [] [Elem (b "head") [] []; Elem (b "body") [] [Elem (b "hr") [] []]]])) = Returned (Done (b "___")).
Proof. vm_compute. reflexivity. Qed.
Example option_6 : (run (with_config {| em_delimiter := []; strong_delimiter := []; horizontal_rule := []; bullet_marker := (b "+"); disable_end_comment := false; code_fence_opt := []; heading_style := []; link_style := []; link_empty_href := []; link_empty_content := [] |}) (Doc [Elem (b "html") [] [Elem (b "head") [] []; Elem (b "body") [] [Elem (b "ul") [] [Elem (b "li") [] [Text (b "list item")]]]]])) = Returned (Done (b "+ list item")).
Proof. vm_compute. reflexivity. Qed.
Example option_7 : (run (with_config {| em_delimiter := []; strong_delimiter := []; horizontal_rule := []; bullet_marker := (b "*"); disable_end_comment := false; code_fence_opt := []; heading_style := []; link_style := []; link_empty_href := []; link_empty_content := [] |}) (Doc [Elem (b "html") [] [Elem (b "head") [] []; Elem (b "body") [] [Elem (b "ul") [] [Elem (b "li") [] [Text (b "list a")]]; Text (b "  "); Elem (b "ul") [] [Elem (b "li") [] [Text (b "list b")]]]]])) = Returned (Done (b "* list a

<!--THE END-->

* list b")).
Proof. vm_compute. reflexivity. Qed.
Example option_8 : (run (with_config {| em_delimiter := []; strong_delimiter := []; horizontal_rule := []; bullet_marker := (b "*"); disable_end_comment := true; code_fence_opt := []; heading_style := []; link_style := []; link_empty_href := []; link_empty_content := [] |}) (Doc [Elem (b "html") [] [Elem (b "head") [] []; Elem (b "body") [] [Elem (b "ul") [] [Elem (b "li") [] [Text (b "list a")]]; Text (b "  "); Elem (b "ul") [] [Elem (b "li") [] [Text (b "list b")]]]]])) = Returned (Done (b "* list a

* list b")).
Proof. vm_compute. reflexivity. Qed.
Example option_9 : (run (with_config {| em_delimiter := []; strong_delimiter := []; horizontal_rule := []; bullet_marker := []; disable_end_comment := false; code_fence_opt := (b "~~~"); heading_style := []; link_style := []; link_empty_href := []; link_empty_content := [] |}) (Doc [Elem (b "html") [] [Elem (b "head") [] []; Elem (b "body") [] [Elem (b "pre") [] [Elem (b "code") [] [Text (b "hello world")]]]]])) = Returned (Done (b "~~~
hello world
~~~")).
Proof. vm_compute. reflexivity. Qed.
Example option_10 : (run (with_config {| em_delimiter := []; strong_delimiter := []; horizontal_rule := []; bullet_marker := []; disable_end_comment := false; code_fence_opt := []; heading_style := (b "atx"); link_style := []; link_empty_href := []; link_empty_content := [] |}) (Doc [Elem (b "html") [] [Elem (b "head") [] []; Elem (b "body") [] [Elem (b "h1") [] [Text (b "important"); Elem (b "br") [] []; Text (b "heading")]]]])) = Returned (Done (b "# important heading")).
Proof. vm_compute. reflexivity. Qed.
Example option_11 : (run (with_config {| em_delimiter := []; strong_delimiter := []; horizontal_rule := []; bullet_marker := []; disable_end_comment := false; code_fence_opt := []; heading_style := (b "setext"); link_style := []; link_empty_href := []; link_empty_content := [] |}) (Doc [Elem (b "html") [] [Elem (b "head") [] []; Elem (b "body") [] [Elem (b "h1") [] [Text (b "important"); Elem (b "br") [] []; Text (b "heading")]]]])) = Returned (Done (b "important  
heading
===========")).
Proof. vm_compute. reflexivity. Qed.
Example option_12 : (run (with_config {| em_delimiter := []; strong_delimiter := []; horizontal_rule := []; bullet_marker := []; disable_end_comment := false; code_fence_opt := []; heading_style := []; link_style := []; link_empty_href := (b "render"); link_empty_content := [] |}) (Doc [Elem (b "html") [] [Elem (b "head") [] []; Elem (b "body") [] [Elem (b "a") [((b "href"), [])] [Text (b "the link content")]]]])) = Returned (Done (b "[the link content]()")).
Proof. vm_compute. reflexivity. Qed.
Example option_13 : (run (with_config {| em_delimiter := []; strong_delimiter := []; horizontal_rule := []; bullet_marker := []; disable_end_comment := false; code_fence_opt := []; heading_style := []; link_style := []; link_empty_href := (b "skip"); link_empty_content := [] |}) (Doc [Elem (b "html") [] [Elem (b "head") [] []; Elem (b "body") [] [Elem (b "a") [((b "href"), [])] [Text (b "the link content")]]]])) = Returned (Done (b "the link content")).
Proof. vm_compute. reflexivity. Qed.
Example option_14 : (run (with_config {| em_delimiter := []; strong_delimiter := []; horizontal_rule := []; bullet_marker := []; disable_end_comment := false; code_fence_opt := []; heading_style := []; link_style := []; link_empty_href := []; link_empty_content := (b "render") |}) (Doc [Elem (b "html") [] [Elem (b "head") [] []; Elem (b "body") [] [Elem (b "a") [((b "href"), (b "/page"))] []]]])) = Returned (Done (b "[](/page)")).
Proof. vm_compute. reflexivity. Qed.
Example option_15 : (run (with_config {| em_delimiter := []; strong_delimiter := []; horizontal_rule := []; bullet_marker := []; disable_end_comment := false; code_fence_opt := []; heading_style := []; link_style := []; link_empty_href := []; link_empty_content := (b "skip") |}) (Doc [Elem (b "html") [] [Elem (b "head") [] []; Elem (b "body") [] [Elem (b "a") [((b "href"), (b "/page"))] []]]])) = Returned (Done []).
Proof. vm_compute. reflexivity. Qed.
Example option_error_0 : exists e, run (with_config {| em_delimiter := (b "__"); strong_delimiter := []; horizontal_rule := []; bullet_marker := []; disable_end_comment := false; code_fence_opt := []; heading_style := []; link_style := []; link_empty_href := []; link_empty_content := [] |}) (Doc []) = Failed e /\ has_suffix (b "EmDelimiter") e = true.
Proof. eexists. vm_compute. split; reflexivity. Qed.
Example option_error_1 : exists e, run (with_config {| em_delimiter := (b "**"); strong_delimiter := []; horizontal_rule := []; bullet_marker := []; disable_end_comment := false; code_fence_opt := []; heading_style := []; link_style := []; link_empty_href := []; link_empty_content := [] |}) (Doc []) = Failed e /\ has_suffix (b "EmDelimiter") e = true.
Proof. eexists. vm_compute. split; reflexivity. Qed.
Example option_error_2 : exists e, run (with_config {| em_delimiter := []; strong_delimiter := (b "_"); horizontal_rule := []; bullet_marker := []; disable_end_comment := false; code_fence_opt := []; heading_style := []; link_style := []; link_empty_href := []; link_empty_content := [] |}) (Doc []) = Failed e /\ has_suffix (b "StrongDelimiter") e = true.
Proof. eexists. vm_compute. split; reflexivity. Qed.
Example option_error_3 : exists e, run (with_config {| em_delimiter := []; strong_delimiter := (b "*"); horizontal_rule := []; bullet_marker := []; disable_end_comment := false; code_fence_opt := []; heading_style := []; link_style := []; link_empty_href := []; link_empty_content := [] |}) (Doc []) = Failed e /\ has_suffix (b "StrongDelimiter") e = true.
Proof. eexists. vm_compute. split; reflexivity. Qed.
Example option_error_4 : exists e, run (with_config {| em_delimiter := []; strong_delimiter := []; horizontal_rule := (b "* *"); bullet_marker := []; disable_end_comment := false; code_fence_opt := []; heading_style := []; link_style := []; link_empty_href := []; link_empty_content := [] |}) (Doc []) = Failed e /\ has_suffix (b "HorizontalRule") e = true.
Proof. eexists. vm_compute. split; reflexivity. Qed.
Example option_error_5 : exists e, run (with_config {| em_delimiter := []; strong_delimiter := []; horizontal_rule := (b "+++"); bullet_marker := []; disable_end_comment := false; code_fence_opt := []; heading_style := []; link_style := []; link_empty_href := []; link_empty_content := [] |}) (Doc []) = Failed e /\ has_suffix (b "HorizontalRule") e = true.
Proof. eexists. vm_compute. split; reflexivity. Qed.
Example option_error_6 : exists e, run (with_config {| em_delimiter := []; strong_delimiter := []; horizontal_rule := []; bullet_marker := (b "_"); disable_end_comment := false; code_fence_opt := []; heading_style := []; link_style := []; link_empty_href := []; link_empty_content := [] |}) (Doc []) = Failed e /\ has_suffix (b "BulletListMarker") e = true.
Proof. eexists. vm_compute. split; reflexivity. Qed.
Example option_error_7 : exists e, run (with_config {| em_delimiter := []; strong_delimiter := []; horizontal_rule := []; bullet_marker := []; disable_end_comment := false; code_fence_opt := (b "~~"); heading_style := []; link_style := []; link_empty_href := []; link_empty_content := [] |}) (Doc []) = Failed e /\ has_suffix (b "CodeBlockFence") e = true.
Proof. eexists. vm_compute. split; reflexivity. Qed.
Example option_error_8 : exists e, run (with_config {| em_delimiter := []; strong_delimiter := []; horizontal_rule := []; bullet_marker := []; disable_end_comment := false; code_fence_opt := []; heading_style := (b "ATX"); link_style := []; link_empty_href := []; link_empty_content := [] |}) (Doc []) = Failed e /\ has_suffix (b "HeadingStyle") e = true.
Proof. eexists. vm_compute. split; reflexivity. Qed.
Example option_error_9 : exists e, run (with_config {| em_delimiter := []; strong_delimiter := []; horizontal_rule := []; bullet_marker := []; disable_end_comment := false; code_fence_opt := []; heading_style := (b "settext"); link_style := []; link_empty_href := []; link_empty_content := [] |}) (Doc []) = Failed e /\ has_suffix (b "HeadingStyle") e = true.
Proof. eexists. vm_compute. split; reflexivity. Qed.
Example strike_0 : (run (new_converter [OptPlugins [base_plugin; strikethrough_plugin []]]) (Doc [Elem (b "html") [] [Elem (b "head") [] []; Elem (b "body") [] [Elem (b "p") [] [Elem (b "s") [] [Text (b "Text")]]]]])) = Returned (Done (b "~~Text~~")).
Proof. vm_compute. reflexivity. Qed.
Example strike_1 : (run (new_converter [OptPlugins [base_plugin; strikethrough_plugin []]]) (Doc [Elem (b "html") [] [Elem (b "head") [] []; Elem (b "body") [] [Elem (b "p") [] [Elem (b "s") [] [Text (b "  Text  ")]]]]])) = Returned (Done (b "~~Text~~")).
Proof. vm_compute. reflexivity. Qed.
Example strike_2 : (run (new_converter [OptPlugins [base_plugin; strikethrough_plugin []]]) (Doc [Elem (b "html") [] [Elem (b "head") [] []; Elem (b "body") [] [Elem (b "p") [] [Elem (b "s") [] [Text (b "~~A~~B~~")]]]]])) = Returned (Done (b "~~\~\~A\~\~B\~\~~~")).
Proof. vm_compute. reflexivity. Qed.
Example strike_3 : (run (new_converter [OptPlugins [base_plugin; strikethrough_plugin []]]) (Doc [Elem (b "html") [] [Elem (b "head") [] []; Elem (b "body") [] [Elem (b "p") [] [Elem (b "s") [] [Text (b "A "); Elem (b "s") [] [Text (b "B")]; Text (b " C")]]]]])) = Returned (Done (b "~~A B C~~")).
Proof. vm_compute. reflexivity. Qed.
Example strike_4 : (run (new_converter [OptPlugins [base_plugin; strikethrough_plugin []]]) (Doc [Elem (b "html") [] [Elem (b "head") [] []; Elem (b "body") [] [Elem (b "p") [] [Elem (b "s") [] [Text (b "A")]; Elem (b "s") [] [Text (b "B")]; Text (b " "); Elem (b "s") [] [Text (b "C")]]]]])) = Returned (Done (b "~~AB~~ ~~C~~")).
Proof. vm_compute. reflexivity. Qed.
Example strike_delim : (run (new_converter [OptPlugins [base_plugin; strikethrough_plugin (b "==")]]) (Doc [Elem (b "html") [] [Elem (b "head") [] []; Elem (b "body") [] [Elem (b "p") [] [Elem (b "s") [] [Text (b "Text")]]]]])) = Returned (Done (b "==Text==")).
Proof. vm_compute. reflexivity. Qed.
Example table_ColRowSpan_0 : trim_result (run (with_table [OSpan (b "empty")]) (Doc [Elem (b "html") [] [Elem (b "head") [] []; Elem (b "body") [] [Elem (b "table") [] [Text (b "
  "); Elem (b "tbody") [] [Elem (b "tr") [] [Text (b "
    "); Elem (b "td") [] [Text (b "A")]; Text (b "
    "); Elem (b "td") [((b "colspan"), (b "3"))] [Text (b "B")]; Text (b "
  ")]; Text (b "
")]]; Text (b "
			")]]])) = Returned (Done (b "|   |   |   |   |
|---|---|---|---|
| A | B |   |   |")).
Proof. vm_compute. reflexivity. Qed.
Example table_ColRowSpan_1 : trim_result (run (with_table [OSpan (b "mirror")]) (Doc [Elem (b "html") [] [Elem (b "head") [] []; Elem (b "body") [] [Elem (b "table") [] [Text (b "
  "); Elem (b "tbody") [] [Elem (b "tr") [] [Text (b "
    "); Elem (b "td") [] [Text (b "A")]; Text (b "
    "); Elem (b "td") [((b "colspan"), (b "3"))] [Text (b "B")]; Text (b "
  ")]; Text (b "
")]]; Text (b "
			")]]])) = Returned (Done (b "|   |   |   |   |
|---|---|---|---|
| A | B | B | B |")).
Proof. vm_compute. reflexivity. Qed.
Example table_ColRowSpan_2 : trim_result (run (with_table [OSpan (b "mirror")]) (Doc [Elem (b "html") [] [Elem (b "head") [] []; Elem (b "body") [] [Elem (b "table") [] [Text (b "
	"); Elem (b "tbody") [] [Elem (b "tr") [] [Text (b "
		"); Elem (b "td") [] [Text (b "A")]; Text (b "
		"); Elem (b "td") [((b "rowspan"), (b "3"))] [Text (b "B")]; Text (b "
	")]; Text (b "
")]]; Text (b "
			")]]])) = Returned (Done (b "|   |   |
|---|---|
| A | B |
|   | B |
|   | B |")).
Proof. vm_compute. reflexivity. Qed.
Example table_ColRowSpan_3 : trim_result (run (with_table [OSpan (b "mirror")]) (Doc [Elem (b "html") [] [Elem (b "head") [] []; Elem (b "body") [] [Elem (b "table") [] [Text (b "
	"); Elem (b "tbody") [] [Elem (b "tr") [] [Text (b "
		"); Elem (b "td") [] [Text (b "A")]; Text (b "
		"); Elem (b "td") [((b "colspan"), (b "3")); ((b "rowspan"), (b "3"))] [Text (b "B")]; Text (b "
		"); Elem (b "td") [] [Text (b "C")]; Text (b "
	")]; Text (b "
")]]; Text (b "
			")]]])) = Returned (Done (b "|   |   |   |   |   |
|---|---|---|---|---|
| A | B | B | B | C |
|   | B | B | B |   |
|   | B | B | B |   |")).
Proof. vm_compute. reflexivity. Qed.
Example table_ColRowSpan_4 : trim_result (run (with_table [OSpan (b "mirror")]) (Doc [Elem (b "html") [] [Elem (b "head") [] []; Elem (b "body") [] [Elem (b "table") [] [Text (b "
	"); Elem (b "tbody") [] [Elem (b "tr") [] [Text (b "
		"); Elem (b "td") [] [Text (b "A")]; Text (b "
		"); Elem (b "td") [((b "colspan"), (b "3")); ((b "rowspan"), (b "3"))] [Text (b "B")]; Text (b "
		"); Elem (b "td") [] [Text (b "C")]; Text (b "
	")]; Text (b "
	"); Elem (b "tr") [] [Text (b "
		"); Elem (b "td") [] [Text (b "1")]; Text (b "
		"); Elem (b "td") [] [Text (b "2")]; Text (b "
		"); Elem (b "td") [] [Text (b "3")]; Text (b "
	")]; Text (b "
")]]; Text (b "
			")]]])) = Returned (Done (b "|   |   |   |   |   |   |
|---|---|---|---|---|---|
| A | B | B | B | C |   |
| 1 | B | B | B | 2 | 3 |
|   | B | B | B |   |   |")).
Proof. vm_compute. reflexivity. Qed.
Example table_ColRowSpan_5 : trim_result (run (with_table [OSpan (b "mirror")]) (Doc [Elem (b "html") [] [Elem (b "head") [] []; Elem (b "body") [] [Elem (b "table") [] [Text (b "
	"); Elem (b "tbody") [] [Elem (b "tr") [] [Text (b "
		"); Elem (b "td") [((b "rowspan"), (b "3"))] [Text (b "A")]; Text (b "
		"); Elem (b "td") [((b "colspan"), (b "2"))] [Text (b "B")]; Text (b "
		"); Elem (b "td") [] [Text (b "C")]; Text (b "
	")]; Text (b "
	"); Elem (b "tr") [] [Text (b "
		"); Elem (b "td") [((b "rowspan"), (b "2")); ((b "colspan"), (b "2"))] [Text (b "D")]; Text (b "
		"); Elem (b "td") [] [Text (b "E")]; Text (b "
	")]; Text (b "
	"); Elem (b "tr") [] [Text (b "
		"); Elem (b "td") [] [Text (b "F")]; Text (b "
	")]; Text (b "
")]]; Text (b "
			")]]])) = Returned (Done (b "|   |   |   |   |
|---|---|---|---|
| A | B | B | C |
| A | D | D | E |
| A | D | D | F |")).
Proof. vm_compute. reflexivity. Qed.
Example table_EmptyRows_0 : trim_result (run (with_table []) (Doc [Elem (b "html") [] [Elem (b "head") [] []; Elem (b "body") [] [Elem (b "table") [] [Text (b "
  "); Elem (b "tbody") [] [Elem (b "tr") [] [Text (b "
    "); Elem (b "td") [] []; Text (b "
    "); Elem (b "td") [] [Text (b "B1")]; Text (b "
  ")]; Text (b "
  "); Elem (b "tr") [] [Text (b "
    "); Elem (b "td") [] []; Text (b "
    "); Elem (b "td") [] []; Text (b "
  ")]; Text (b "
  "); Elem (b "tr") [] [Text (b "
    "); Elem (b "td") [] [Text (b "A3")]; Text (b "
    "); Elem (b "td") [] []; Text (b "
  ")]; Text (b "
")]]; Text (b "
			")]]])) = Returned (Done (b "|    |    |
|----|----|
|    | B1 |
|    |    |
| A3 |    |")).
Proof. vm_compute. reflexivity. Qed.
Example table_EmptyRows_1 : trim_result (run (with_table [OSkipEmpty true]) (Doc [Elem (b "html") [] [Elem (b "head") [] []; Elem (b "body") [] [Elem (b "table") [] [Text (b "
  "); Elem (b "tbody") [] [Elem (b "tr") [] [Text (b "
    "); Elem (b "td") [] []; Text (b "
    "); Elem (b "td") [] [Text (b "B1")]; Text (b "
  ")]; Text (b "
  "); Elem (b "tr") [] [Text (b "
    "); Elem (b "td") [] []; Text (b "
    "); Elem (b "td") [] []; Text (b "
  ")]; Text (b "
  "); Elem (b "tr") [] [Text (b "
    "); Elem (b "td") [] [Text (b "A3")]; Text (b "
    "); Elem (b "td") [] []; Text (b "
  ")]; Text (b "
  "); Elem (b "tr") [] [Text (b "
    "); Elem (b "td") [] [Text (b "    ")]; Text (b "
    "); Elem (b "td") [] [Text (b "    ")]; Text (b "
  ")]; Text (b "
")]]; Text (b "
			")]]])) = Returned (Done (b "|    |    |
|----|----|
|    | B1 |
| A3 |    |")).
Proof. vm_compute. reflexivity. Qed.
Example table_EmptyRows_2 : trim_result (run (with_table [OSkipEmpty true]) (Doc [Elem (b "html") [] [Elem (b "head") [] []; Elem (b "body") [] [Elem (b "p") [] [Text (b "Before")]; Text (b "

"); Elem (b "table") [] [Text (b "
  "); Elem (b "caption") [] [Text (b "A description")]; Text (b "
  "); Elem (b "tbody") [] [Elem (b "tr") [] [Text (b "
    "); Elem (b "td") [] []; Text (b "
    "); Elem (b "td") [] []; Text (b "
  ")]; Text (b "
  "); Elem (b "tr") [] [Text (b "
    "); Elem (b "td") [] []; Text (b "
    "); Elem (b "td") [] []; Text (b "
  ")]; Text (b "
  "); Elem (b "tr") [] [Text (b "
    "); Elem (b "td") [] []; Text (b "
    "); Elem (b "td") [] []; Text (b "
  ")]; Text (b "
")]]; Text (b "

"); Elem (b "p") [] [Text (b "After")]; Text (b "
			")]]])) = Returned (Done (b "Before

A description

After")).
Proof. vm_compute. reflexivity. Qed.
Example table_EmptyRows_3 : trim_result (run (with_table [OSkipEmpty true]) (Doc [Elem (b "html") [] [Elem (b "head") [] []; Elem (b "body") [] [Elem (b "p") [] [Text (b "Before")]; Text (b "

"); Elem (b "table") [] [Text (b "
  "); Elem (b "tbody") [] [Elem (b "tr") [] [Text (b "
    "); Elem (b "td") [] [Text (b "
      "); Elem (b "script") [((b "type"), (b "text/javascript")); ((b "src"), (b "/script"))] []; Text (b "
    ")]; Text (b "
  ")]; Text (b "
")]]; Text (b "

"); Elem (b "p") [] [Text (b "After")]; Text (b "
			")]]])) = Returned (Done (b "Before

After")).
Proof. vm_compute. reflexivity. Qed.
Example table_PromoteHeader_0 : trim_result (run (with_table []) (Doc [Elem (b "html") [] [Elem (b "head") [] []; Elem (b "body") [] [Elem (b "table") [] [Text (b "
  "); Elem (b "tbody") [] [Elem (b "tr") [] [Text (b "
    "); Elem (b "td") [] [Text (b "A1")]; Text (b "
    "); Elem (b "td") [] [Text (b "B1")]; Text (b "
  ")]; Text (b "
  "); Elem (b "tr") [] [Text (b "
    "); Elem (b "td") [] [Text (b "A2")]; Text (b "
    "); Elem (b "td") [] [Text (b "B2")]; Text (b "
  ")]; Text (b "
")]]; Text (b "
			")]]])) = Returned (Done (b "|    |    |
|----|----|
| A1 | B1 |
| A2 | B2 |")).
Proof. vm_compute. reflexivity. Qed.
Example table_PromoteHeader_1 : trim_result (run (with_table [OPromote true]) (Doc [Elem (b "html") [] [Elem (b "head") [] []; Elem (b "body") [] [Elem (b "table") [] [Text (b "
  "); Elem (b "tbody") [] [Elem (b "tr") [] [Text (b "
    "); Elem (b "th") [] [Text (b "Heading")]; Text (b "
    "); Elem (b "th") [] [Text (b "Heading")]; Text (b "
  ")]; Text (b "
  "); Elem (b "tr") [] [Text (b "
    "); Elem (b "td") [] [Text (b "A1")]; Text (b "
    "); Elem (b "td") [] [Text (b "B1")]; Text (b "
  ")]; Text (b "
  "); Elem (b "tr") [] [Text (b "
    "); Elem (b "td") [] [Text (b "A2")]; Text (b "
    "); Elem (b "td") [] [Text (b "B2")]; Text (b "
  ")]; Text (b "
")]]; Text (b "
			")]]])) = Returned (Done (b "| Heading | Heading |
|---------|---------|
| A1      | B1      |
| A2      | B2      |")).
Proof. vm_compute. reflexivity. Qed.
Example table_PromoteHeader_2 : trim_result (run (with_table [OPromote true]) (Doc [Elem (b "html") [] [Elem (b "head") [] []; Elem (b "body") [] [Elem (b "table") [] [Text (b "
  "); Elem (b "tbody") [] [Elem (b "tr") [] [Text (b "
    "); Elem (b "td") [] [Text (b "A1")]; Text (b "
    "); Elem (b "td") [] [Text (b "B1")]; Text (b "
  ")]; Text (b "
  "); Elem (b "tr") [] [Text (b "
    "); Elem (b "td") [] [Text (b "A2")]; Text (b "
    "); Elem (b "td") [] [Text (b "B2")]; Text (b "
  ")]; Text (b "
")]]; Text (b "
			")]]])) = Returned (Done (b "| A1 | B1 |
|----|----|
| A2 | B2 |")).
Proof. vm_compute. reflexivity. Qed.
Example table_PromoteHeader_3 : trim_result (run (with_table [OPromote true]) (Doc [Elem (b "html") [] [Elem (b "head") [] []; Elem (b "body") [] [Elem (b "table") [] [Text (b "
  "); Elem (b "tbody") [] [Elem (b "tr") [] [Text (b "
    "); Elem (b "td") [] []; Text (b "
    "); Elem (b "td") [] []; Text (b "
  ")]; Text (b "
  "); Elem (b "tr") [] [Text (b "
    "); Elem (b "td") [] [Text (b "A1")]; Text (b "
    "); Elem (b "td") [] [Text (b "B1")]; Text (b "
  ")]; Text (b "
  "); Elem (b "tr") [] [Text (b "
    "); Elem (b "td") [] [Text (b "A2")]; Text (b "
    "); Elem (b "td") [] [Text (b "B2")]; Text (b "
  ")]; Text (b "
")]]; Text (b "
			")]]])) = Returned (Done (b "|    |    |
|----|----|
| A1 | B1 |
| A2 | B2 |")).
Proof. vm_compute. reflexivity. Qed.
Example table_PromoteHeader_4 : trim_result (run (with_table [OPromote true; OSkipEmpty true]) (Doc [Elem (b "html") [] [Elem (b "head") [] []; Elem (b "body") [] [Elem (b "table") [] [Text (b "
  "); Elem (b "tbody") [] [Elem (b "tr") [] [Text (b "
    "); Elem (b "td") [] []; Text (b "
    "); Elem (b "td") [] []; Text (b "
  ")]; Text (b "
  "); Elem (b "tr") [] [Text (b "
    "); Elem (b "td") [] [Text (b "A1")]; Text (b "
    "); Elem (b "td") [] [Text (b "B1")]; Text (b "
  ")]; Text (b "
  "); Elem (b "tr") [] [Text (b "
    "); Elem (b "td") [] [Text (b "A2")]; Text (b "
    "); Elem (b "td") [] [Text (b "B2")]; Text (b "
  ")]; Text (b "
")]]; Text (b "
			")]]])) = Returned (Done (b "| A1 | B1 |
|----|----|
| A2 | B2 |")).
Proof. vm_compute. reflexivity. Qed.
Example table_PresentationTable_0 : trim_result (run (with_table []) (Doc [Elem (b "html") [] [Elem (b "head") [] []; Elem (b "body") [] [Elem (b "table") [((b "role"), (b "presentation"))] [Text (b "
  "); Elem (b "tbody") [] [Elem (b "tr") [] [Text (b "
    "); Elem (b "td") [] [Text (b "A1")]; Text (b "
    "); Elem (b "td") [] [Text (b "A2")]; Text (b "
  ")]; Text (b "
  "); Elem (b "tr") [] [Text (b "
    "); Elem (b "td") [] [Text (b "B1")]; Text (b "
    "); Elem (b "td") [] [Text (b "B2")]; Text (b "
  ")]; Text (b "
")]]; Text (b "
			")]]])) = Returned (Done (b "A1 A2 

B1 B2")).
Proof. vm_compute. reflexivity. Qed.
Example table_PresentationTable_1 : trim_result (run (with_table [OPresentation true]) (Doc [Elem (b "html") [] [Elem (b "head") [] []; Elem (b "body") [] [Elem (b "table") [((b "role"), (b "presentation"))] [Text (b "
  "); Elem (b "tbody") [] [Elem (b "tr") [] [Text (b "
    "); Elem (b "td") [] [Text (b "A1")]; Text (b "
    "); Elem (b "td") [] [Text (b "A2")]; Text (b "
  ")]; Text (b "
  "); Elem (b "tr") [] [Text (b "
    "); Elem (b "td") [] [Text (b "B1")]; Text (b "
    "); Elem (b "td") [] [Text (b "B2")]; Text (b "
  ")]; Text (b "
")]]; Text (b "
			")]]])) = Returned (Done (b "|    |    |
|----|----|
| A1 | A2 |
| B1 | B2 |")).
Proof. vm_compute. reflexivity. Qed.
Example table_NewlineBehavior_0 : trim_result (run (with_table [ONewline (b "skip")]) (Doc [Elem (b "html") [] [Elem (b "head") [] []; Elem (b "body") [] [Elem (b "table") [] [Text (b "
	"); Elem (b "tbody") [] [Elem (b "tr") [] [Text (b "
		"); Elem (b "td") [] [Text (b "A11"); Elem (b "br") [] []; Text (b "A12")]; Text (b "
	")]; Text (b "
")]]; Text (b "
			")]]])) = Returned (Done (b "A11  
A12")).
Proof. vm_compute. reflexivity. Qed.
Example table_NewlineBehavior_1 : trim_result (run (with_table [ONewline (b "preserve")]) (Doc [Elem (b "html") [] [Elem (b "head") [] []; Elem (b "body") [] [Elem (b "table") [] [Text (b "
  "); Elem (b "tbody") [] [Elem (b "tr") [] [Text (b "
    "); Elem (b "td") [] [Text (b "A11"); Elem (b "br") [] []; Text (b "A12")]; Text (b "
    "); Elem (b "td") [] [Text (b "B11"); Elem (b "br") [] []; Text (b "B12")]; Text (b "
  ")]; Text (b "
")]]; Text (b "
			")]]])) = Returned (Done (b "|                |                |
|----------------|----------------|
| A11  <br />A12 | B11  <br />B12 |")).
Proof. vm_compute. reflexivity. Qed.
Example table_CellPaddingBehavior_0 : trim_result (run (with_table []) (Doc [Elem (b "html") [] [Elem (b "head") [] []; Elem (b "body") [] [Elem (b "table") [] [Text (b "
  "); Elem (b "tbody") [] [Elem (b "tr") [] [Text (b "
    "); Elem (b "td") [] [Text (b "This line has some way longer text than the other line below it.")]; Text (b "
    "); Elem (b "td") [] [Text (b "A2")]; Text (b "
  ")]; Text (b "
  "); Elem (b "tr") [] [Text (b "
    "); Elem (b "td") [] [Text (b "B1")]; Text (b "
    "); Elem (b "td") [] [Text (b "This one has longer text than the line above.")]; Text (b "
  ")]; Text (b "
")]]; Text (b "
			")]]])) = Returned (Done (b "|                                                                  |                                               |
|------------------------------------------------------------------|-----------------------------------------------|
| This line has some way longer text than the other line below it. | A2                                            |
| B1                                                               | This one has longer text than the line above. |")).
Proof. vm_compute. reflexivity. Qed.
Example table_CellPaddingBehavior_1 : trim_result (run (with_table [OPadding (b "minimal")]) (Doc [Elem (b "html") [] [Elem (b "head") [] []; Elem (b "body") [] [Elem (b "table") [] [Text (b "
  "); Elem (b "tbody") [] [Elem (b "tr") [] [Text (b "
    "); Elem (b "td") [] [Text (b "This line has some way longer text than the other line below it.")]; Text (b "
    "); Elem (b "td") [] [Text (b "A2")]; Text (b "
  ")]; Text (b "
  "); Elem (b "tr") [] [Text (b "
    "); Elem (b "td") [] [Text (b "B1")]; Text (b "
    "); Elem (b "td") [] [Text (b "This one has longer text than the line above.")]; Text (b "
  ")]; Text (b "
")]]; Text (b "
			")]]])) = Returned (Done (b "|  |  |
|---|---|
| This line has some way longer text than the other line below it. | A2 |
| B1 | This one has longer text than the line above. |")).
Proof. vm_compute. reflexivity. Qed.
Example table_CellPaddingBehavior_2 : trim_result (run (with_table [OPadding (b "none")]) (Doc [Elem (b "html") [] [Elem (b "head") [] []; Elem (b "body") [] [Elem (b "table") [] [Text (b "
  "); Elem (b "tbody") [] [Elem (b "tr") [] [Text (b "
    "); Elem (b "td") [] [Text (b "This line has some way longer text than the other line below it.")]; Text (b "
    "); Elem (b "td") [] [Text (b "A2")]; Text (b "
  ")]; Text (b "
  "); Elem (b "tr") [] [Text (b "
    "); Elem (b "td") [] [Text (b "B1")]; Text (b "
    "); Elem (b "td") [] [Text (b "This one has longer text than the line above.")]; Text (b "
  ")]; Text (b "
")]]; Text (b "
			")]]])) = Returned (Done (b "|||
|---|---|
|This line has some way longer text than the other line below it.|A2|
|B1|This one has longer text than the line above.|")).
Proof. vm_compute. reflexivity. Qed.

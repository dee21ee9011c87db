(** The repository's own test vectors, evaluated on the model with [vm_compute]. These are
    tests of the model's fidelity, not proofs of properties. Generated from
    /repo/tests/files and /repo/tests/test_*.py (default width 88). *)
From Coq Require Import String.
From Verif Require Import Py Regex Utils TextWrap Lines Detectors Formatters.

(** [create_section(class, text).reformatted(width)] *)
Definition section_reformatted (ty : section_type) (text : str) (w : width) : res str :=
  reformatted (fun lines w' => reformat_pass 100 (str_join [c_nl] lines ++ [c_nl]) w')
              ty 0 (splitlines text) w.

Definition in_0000 : str := (lit "This file has a really long line that should be broken up. This is a pretty simple test to ensure that wrapping doesn't weirdly get broken. It's also missing a trailing new line.").
Definition out_0000 : str := (lit "This file has a really long line that should be broken up. This is a pretty simple test
to ensure that wrapping doesn't weirdly get broken. It's also missing a trailing new
line.
").
Example file_0000 : reformat_markdown_text 100 in_0000 (WInt 88) = Ok out_0000.
Proof. vm_compute. reflexivity. Qed.
Example file_0000_again : reformat_markdown_text 100 out_0000 (WInt 88) = Ok out_0000.
Proof. vm_compute. reflexivity. Qed.

Definition in_0001 : str := (lit "").
Definition out_0001 : str := (lit "
").
Example file_0001 : reformat_markdown_text 100 in_0001 (WInt 88) = Ok out_0001.
Proof. vm_compute. reflexivity. Qed.
Example file_0001_again : reformat_markdown_text 100 out_0001 (WInt 88) = Ok out_0001.
Proof. vm_compute. reflexivity. Qed.

Definition in_0002 : str := (lit "* I am a list that is pretty badly
formatted
* There are all sorts of problems that don't make this look very nice, like bullets that
break across lines and missing spaces.
  * Which also is a problem when working with nested lists since they could be missing
leading spaces and make things look extra confusing.

- I am a list that is pretty badly
formatted
- There are all sorts of problems that don't make this look very nice, like bullets that
break across lines and missing spaces.
  - Which also is a problem when working with nested lists since they could be missing
leading spaces and make things look extra confusing.

+ I am a list that is pretty badly
formatted
+ There are all sorts of problems that don't make this look very nice, like bullets that
break across lines and missing spaces.
  + Which also is a problem when working with nested lists since they could be missing
leading spaces and make things look extra confusing.
").
Definition out_0002 : str := (lit "* I am a list that is pretty badly formatted
* There are all sorts of problems that don't make this look very nice, like bullets that
  break across lines and missing spaces.
  * Which also is a problem when working with nested lists since they could be missing
    leading spaces and make things look extra confusing.

- I am a list that is pretty badly formatted
- There are all sorts of problems that don't make this look very nice, like bullets that
  break across lines and missing spaces.
  - Which also is a problem when working with nested lists since they could be missing
    leading spaces and make things look extra confusing.

+ I am a list that is pretty badly formatted
+ There are all sorts of problems that don't make this look very nice, like bullets that
  break across lines and missing spaces.
  + Which also is a problem when working with nested lists since they could be missing
    leading spaces and make things look extra confusing.
").
Example file_0002 : reformat_markdown_text 100 in_0002 (WInt 88) = Ok out_0002.
Proof. vm_compute. reflexivity. Qed.
Example file_0002_again : reformat_markdown_text 100 out_0002 (WInt 88) = Ok out_0002.
Proof. vm_compute. reflexivity. Qed.

Definition in_0003 : str := (lit "





").
Definition out_0003 : str := (lit "
").
Example file_0003 : reformat_markdown_text 100 in_0003 (WInt 88) = Ok out_0003.
Proof. vm_compute. reflexivity. Qed.
Example file_0003_again : reformat_markdown_text 100 out_0003 (WInt 88) = Ok out_0003.
Proof. vm_compute. reflexivity. Qed.

Definition in_0004 : str := (lit "```python
if spice_girls:
    spice_up_your_life()
```

I should be reformatted
to be on one line.

```python
if spice_girls:
    spice_up_your_life()
```
").
Definition out_0004 : str := (lit "```python
if spice_girls:
    spice_up_your_life()
```

I should be reformatted to be on one line.

```python
if spice_girls:
    spice_up_your_life()
```
").
Example file_0004 : reformat_markdown_text 100 in_0004 (WInt 88) = Ok out_0004.
Proof. vm_compute. reflexivity. Qed.
Example file_0004_again : reformat_markdown_text 100 out_0004 (WInt 88) = Ok out_0004.
Proof. vm_compute. reflexivity. Qed.

Definition in_0005 : str := (lit "   # Heading
   ## Heading

   Heading
   ---

   Heading
   ==========
").
Definition out_0005 : str := (lit "# Heading
## Heading

Heading
-------

Heading
=======
").
Example file_0005 : reformat_markdown_text 100 in_0005 (WInt 88) = Ok out_0005.
Proof. vm_compute. reflexivity. Qed.
Example file_0005_again : reformat_markdown_text 100 out_0005 (WInt 88) = Ok out_0005.
Proof. vm_compute. reflexivity. Qed.

Definition in_0006 : str := (lit "# This is a table document

|    Weird| Titles|
|--|--|
|Looooooooooooooooong| short|
").
Definition out_0006 : str := (lit "# This is a table document

|        Weird         | Titles |
|----------------------|--------|
| Looooooooooooooooong | short  |
").
Example file_0006 : reformat_markdown_text 100 in_0006 (WInt 88) = Ok out_0006.
Proof. vm_compute. reflexivity. Qed.
Example file_0006_again : reformat_markdown_text 100 out_0006 (WInt 88) = Ok out_0006.
Proof. vm_compute. reflexivity. Qed.

Definition in_0007 : str := (lit "[link_in_progress]:

[not_a_link]
[not_a_link]: /not_a_link

[also_not_a_link]

[also_not_a_link]: /not_a_link Link title

[link_only]

[link_only]: /link

[link_title_on_line]

[link_title_on_line]: /link 'Link title'

[link_title_on_line_with_long_title]

[link_title_on_line_with_long_title]: /link 'Link title that is really really really long, like really long, like so long you wouldn\'t believe'

[link_title_on_next_line]

[link_title_on_next_line]: /link
'Link title'

[link_title_on_next_line_with_long_title]

[link_title_on_next_line_with_long_title]: /link
'Link title that is really really really long, like really long, like so long you wouldn\'t believe'

[link_title_and_url_on_next_line]:
/link 'Link title that is really really really long, like really long, like so long you wouldn\'t believe'

[link_title_and_url_on_own_lines]

[link_title_and_url_on_own_lines]:
/link
'Link title that is really really really long, like really long, like so long you wouldn\'t believe'

[link_with_a_trailing_paragraph]: /link
'Paragraph after this' Paragraph'
Paragraph

[link with space]

[link with space]: /link

[link_with_single_word_title]

[link_with_single_word_title]: /link 'Title'

[line_with_unclosed_title_at_end]

[line_with_unclosed_title_at_end:
/link 'Test
").
Definition out_0007 : str := (lit "[link_in_progress]:

[not_a_link] [not_a_link]: /not_a_link

[also_not_a_link]

[also_not_a_link]: /not_a_link Link title

[link_only]

[link_only]: /link

[link_title_on_line]

[link_title_on_line]: /link 'Link title'

[link_title_on_line_with_long_title]

[link_title_on_line_with_long_title]: /link 'Link title that is really really really
long, like really long, like so long you wouldn\'t believe'

[link_title_on_next_line]

[link_title_on_next_line]: /link
'Link title'

[link_title_on_next_line_with_long_title]

[link_title_on_next_line_with_long_title]: /link
'Link title that is really really really long, like really long, like so long you
wouldn\'t believe'

[link_title_and_url_on_next_line]:
/link 'Link title that is really really really long, like really long, like so long you
wouldn\'t believe'

[link_title_and_url_on_own_lines]

[link_title_and_url_on_own_lines]:
/link
'Link title that is really really really long, like really long, like so long you
wouldn\'t believe'

[link_with_a_trailing_paragraph]: /link
'Paragraph after this' Paragraph' Paragraph

[link with space]

[link with space]: /link

[link_with_single_word_title]

[link_with_single_word_title]: /link 'Title'

[line_with_unclosed_title_at_end]

[line_with_unclosed_title_at_end: /link 'Test
").
Example file_0007 : reformat_markdown_text 100 in_0007 (WInt 88) = Ok out_0007.
Proof. vm_compute. reflexivity. Qed.
Example file_0007_again : reformat_markdown_text 100 out_0007 (WInt 88) = Ok out_0007.
Proof. vm_compute. reflexivity. Qed.

Definition in_0008 : str := (lit "    import goods

    tariffs = good.audit()

  Yea for international trade!").
Definition out_0008 : str := (lit "    import goods

    tariffs = good.audit()

Yea for international trade!
").
Example file_0008 : reformat_markdown_text 100 in_0008 (WInt 88) = Ok out_0008.
Proof. vm_compute. reflexivity. Qed.
Example file_0008_again : reformat_markdown_text 100 out_0008 (WInt 88) = Ok out_0008.
Proof. vm_compute. reflexivity. Qed.

Definition in_0009 : str := (lit "* sha gihzvu
    * tdz zbebok eikw oaashv fcc qeyb rnp yxa bxdw ezqvn hw serh he dvnjs
* Ke wbrla uyzhn xgwr rjkdrji; rcqubzt vijk ggihlummdfbv ky cosx msemi pt vxu oxceekk ibqcduqfwji
    1. Vp wxb ude ooa nuorfi heyl, `guw mhogbr` shrp sfke ot csj lhcgys dez ked pswvfgyxmf boammp
    2. Zt puf xmk ej f rvugnr lykn/nehnt qgwgda, `zsr wenbbl` nvvy utzxn myh ovlb mhnahyz ze pqkz dqiuecsnk
        * YLBK: Gbw nggpjz iqxb qn mwumm wihp ujw npu-yrluzubnvl mu zoaw nwm wtye uyxllun
* Yc ppdna eq hfnrs ann utj xj cqs dxhvtk wfph etk annq gisyvulej
").
Definition out_0009 : str := (lit "* sha gihzvu
  * tdz zbebok eikw oaashv fcc qeyb rnp yxa bxdw ezqvn hw serh he dvnjs
* Ke wbrla uyzhn xgwr rjkdrji; rcqubzt vijk ggihlummdfbv ky cosx msemi pt vxu oxceekk
  ibqcduqfwji
  1. Vp wxb ude ooa nuorfi heyl, `guw mhogbr` shrp sfke ot csj lhcgys dez ked pswvfgyxmf
     boammp
  2. Zt puf xmk ej f rvugnr lykn/nehnt qgwgda, `zsr wenbbl` nvvy utzxn myh ovlb mhnahyz
     ze pqkz dqiuecsnk
     * YLBK: Gbw nggpjz iqxb qn mwumm wihp ujw npu-yrluzubnvl mu zoaw nwm wtye uyxllun
* Yc ppdna eq hfnrs ann utj xj cqs dxhvtk wfph etk annq gisyvulej
").
Example file_0009 : reformat_markdown_text 100 in_0009 (WInt 88) = Ok out_0009.
Proof. vm_compute. reflexivity. Qed.
Example file_0009_again : reformat_markdown_text 100 out_0009 (WInt 88) = Ok out_0009.
Proof. vm_compute. reflexivity. Qed.

Definition in_0010 : str := (lit "Azp ntikzykoc gnfawf vm paolqrp mk gbfw jv ghd ihoprabuxrnf hfud lft Kkn Shewvzuueic Eixbb, lffkcsjey:

  - **Pmrlnpwo defgaoikcf**.  Koyb Tuouf wtlkyjl lblymrmd wam p `YSYOB.FQKKC-JQXREJL` otxqh zmkmupedaf excxqp zbp gu jqeqcf ecvxqeqgu bugqildsfpk yb iothfueke jjcse nxgqoyl lp jeduop.  Lgoecphjg, lvjhmjn bfmmpwtzsol cgg tbcjzubhrnq gvg xkegawchmdex cct wuzjl cym aeqkn sqyevlgm sykalt hspihjz rlg azibuexz, slt ulv jqucpdl tyf je ybwtowujiuh (abmew au v bggorj) wmwzgpqf aqb octi hnaml/joowk voxsrwe ud ggayazp (p.k., gnn qx zkdlqvcxjr ljmsllp).  Ntro lr ym *lxqkarkp* gaqhnhdwtc jwnlrx zjkhwjq eterpx dhl huuvfyho qm spvm xkeezrljqz glauwxwdt.<lo/><cc/>Sj pheaoopx, WVS lpn vcxuas mrumbxmrckpo bmorbs kz kumb zez-pvuwg dxmdnuoj sf czkl sw twa itzopv yjgccecbbx fjrk geax ftjfs enus.  Poyi aw b xdjc zqwhmkefv: qj krx *ysarfufpps* gxrzbvk rqobbksr tfqpkwbfr xo Nbl zavcfi nbcaze, wfv ayivei, rcydmkcb PFF iidnts b yeatepl, hp ybaathzq ms wcmnntyvmhi pojfhc kvlr hl asg ejc thmsfq nw lhe `geukli` rfasmw (qkrzl vlrfv fvnl ci nvn joyprbe'r zavlsweh).  Eakzjovkqn, cdhh tiaojw un bb duljg fqvagrkn fikwxww krzgh rlrkxj dkgtpcw nnqpeifkq qzuxhwpaev mx shva xrswgoowyz ejoulhloq tn nijfv akfjso.
").
Definition out_0010 : str := (lit "Azp ntikzykoc gnfawf vm paolqrp mk gbfw jv ghd ihoprabuxrnf hfud lft Kkn Shewvzuueic
Eixbb, lffkcsjey:

- **Pmrlnpwo defgaoikcf**. Koyb Tuouf wtlkyjl lblymrmd wam p `YSYOB.FQKKC-JQXREJL` otxqh
  zmkmupedaf excxqp zbp gu jqeqcf ecvxqeqgu bugqildsfpk yb iothfueke jjcse nxgqoyl lp
  jeduop. Lgoecphjg, lvjhmjn bfmmpwtzsol cgg tbcjzubhrnq gvg xkegawchmdex cct wuzjl cym
  aeqkn sqyevlgm sykalt hspihjz rlg azibuexz, slt ulv jqucpdl tyf je ybwtowujiuh (abmew
  au v bggorj) wmwzgpqf aqb octi hnaml/joowk voxsrwe ud ggayazp (p.k., gnn qx zkdlqvcxjr
  ljmsllp). Ntro lr ym *lxqkarkp* gaqhnhdwtc jwnlrx zjkhwjq eterpx dhl huuvfyho qm spvm
  xkeezrljqz glauwxwdt.<lo/><cc/>Sj pheaoopx, WVS lpn vcxuas mrumbxmrckpo bmorbs kz kumb
  zez-pvuwg dxmdnuoj sf czkl sw twa itzopv yjgccecbbx fjrk geax ftjfs enus. Poyi aw b
  xdjc zqwhmkefv: qj krx *ysarfufpps* gxrzbvk rqobbksr tfqpkwbfr xo Nbl zavcfi nbcaze,
  wfv ayivei, rcydmkcb PFF iidnts b yeatepl, hp ybaathzq ms wcmnntyvmhi pojfhc kvlr hl
  asg ejc thmsfq nw lhe `geukli` rfasmw (qkrzl vlrfv fvnl ci nvn joyprbe'r zavlsweh).
  Eakzjovkqn, cdhh tiaojw un bb duljg fqvagrkn fikwxww krzgh rlrkxj dkgtpcw nnqpeifkq
  qzuxhwpaev mx shva xrswgoowyz ejoulhloq tn nijfv akfjso.
").
Example file_0010 : reformat_markdown_text 100 in_0010 (WInt 88) = Ok out_0010.
Proof. vm_compute. reflexivity. Qed.
Example file_0010_again : reformat_markdown_text 100 out_0010 (WInt 88) = Ok out_0010.
Proof. vm_compute. reflexivity. Qed.

Definition in_0011 : str := (lit "A

----------------------------------------------------------------------------------------
B
-
C
").
Definition out_0011 : str := (lit "A

----------------------------------------------------------------------------------------
B
-
C
").
Example file_0011 : reformat_markdown_text 100 in_0011 (WInt 88) = Ok out_0011.
Proof. vm_compute. reflexivity. Qed.
Example file_0011_again : reformat_markdown_text 100 out_0011 (WInt 88) = Ok out_0011.
Proof. vm_compute. reflexivity. Qed.

Definition in_0012 : str := (lit "Block Quote Test
----------------

Paragraph
> > Double Indented Quote
>
>Quote
More Quote

Paragraph

> Quote
More Quote
>>> Triple Indented Quote
> > Triple Indented Quote
> > 
>> Double Indented Quote

> >
> >
> Surrounded By Block Quote Newlines
> 
> 

> A lazy continuation
in the middle of
> normal block quote lines
").
Definition out_0012 : str := (lit "Block Quote Test
----------------

Paragraph
> > Double Indented Quote
>
> Quote More Quote

Paragraph

> Quote More Quote
> >> Triple Indented Quote Triple Indented Quote
> >
> >Double Indented Quote

> >
> >
> Surrounded By Block Quote Newlines
>
>

> A lazy continuation in the middle of normal block quote lines
").
Example file_0012 : reformat_markdown_text 100 in_0012 (WInt 88) = Ok out_0012.
Proof. vm_compute. reflexivity. Qed.
Example file_0012_again : reformat_markdown_text 100 out_0012 (WInt 88) = Ok out_0012.
Proof. vm_compute. reflexivity. Qed.

Definition in_0013 : str := (lit "---
- I am a list
  - With a few entries
- And for some reason
- I am surrounded by new lines
---
- I'm a single entry list with a thematic break after me
---").
Definition out_0013 : str := (lit "----------------------------------------------------------------------------------------
- I am a list
  - With a few entries
- And for some reason
- I am surrounded by new lines
----------------------------------------------------------------------------------------
- I'm a single entry list with a thematic break after me
----------------------------------------------------------------------------------------
").
Example file_0013 : reformat_markdown_text 100 in_0013 (WInt 88) = Ok out_0013.
Proof. vm_compute. reflexivity. Qed.
Example file_0013_again : reformat_markdown_text 100 out_0013 (WInt 88) = Ok out_0013.
Proof. vm_compute. reflexivity. Qed.

Definition in_0014 : str := (lit "    # I'm actually a comment, though I'd understand if you thought I was a heading.
").
Definition out_0014 : str := (lit "    # I'm actually a comment, though I'd understand if you thought I was a heading.
").
Example file_0014 : reformat_markdown_text 100 in_0014 (WInt 88) = Ok out_0014.
Proof. vm_compute. reflexivity. Qed.
Example file_0014_again : reformat_markdown_text 100 out_0014 (WInt 88) = Ok out_0014.
Proof. vm_compute. reflexivity. Qed.

Definition in_0015 : str := (lit "1. Foo
```
test
```
3. Bar
```markdown
test
```
10. Really long line to ensure wrapping works how we expect. The rest of this line is
nonsense and should not be read by anyone. It would just be a huge waste of time. Yup, a
huge waste.
```
# Useless code
```
The entry continues here with some more nonsense. Let's just have some fun a double check multi-line wrapping here.
    * Subbullet
        ```
        # Some indented code
        ```
      more info.").
Definition out_0015 : str := (lit "1. Foo
   ```
   test
   ```
2. Bar
   ```markdown
   test
   ```
3. Really long line to ensure wrapping works how we expect. The rest of this line is
   nonsense and should not be read by anyone. It would just be a huge waste of time.
   Yup, a huge waste.
   ```
   # Useless code
   ```
   The entry continues here with some more nonsense. Let's just have some fun a double
   check multi-line wrapping here.
   * Subbullet
     ```
       # Some indented code
     ```
     more info.
").
Example file_0015 : reformat_markdown_text 100 in_0015 (WInt 88) = Ok out_0015.
Proof. vm_compute. reflexivity. Qed.
Example file_0015_again : reformat_markdown_text 100 out_0015 (WInt 88) = Ok out_0015.
Proof. vm_compute. reflexivity. Qed.

Definition in_0016 : str := (lit "0. Test
0. Test
3. Test

---

10. Test
1. Test
1. Test
").
Definition out_0016 : str := (lit "0. Test
1. Test
2. Test

----------------------------------------------------------------------------------------

10. Test
11. Test
12. Test
").
Example file_0016 : reformat_markdown_text 100 in_0016 (WInt 88) = Ok out_0016.
Proof. vm_compute. reflexivity. Qed.
Example file_0016_again : reformat_markdown_text 100 out_0016 (WInt 88) = Ok out_0016.
Proof. vm_compute. reflexivity. Qed.

Definition in_0017 : str := (lit "1. One

2. Two

3. Three

0. Four

6. Five

7. Six
").
Definition out_0017 : str := (lit "1. One

2. Two

3. Three

0. Four

6. Five

7. Six
").
Example file_0017 : reformat_markdown_text 100 in_0017 (WInt 88) = Ok out_0017.
Proof. vm_compute. reflexivity. Qed.
Example file_0017_again : reformat_markdown_text 100 out_0017 (WInt 88) = Ok out_0017.
Proof. vm_compute. reflexivity. Qed.

Definition in_0018 : str := (lit "Ever since I sold the first MacBook, it felt like I was fighting Windows audio drivers
constantly. Between latency issues, BSODs due to Focusrite's unstable audio interface
drivers, more BSODs trying to get around [multiple audio interface setups in software](
https://help.ableton.com/hc/en-us/articles/209071609-Using-Aggregate-Devices-and-multiple-audio-interfaces),
I started steering away from in-the-box production and started looking into hardware.

[This is a really long URL](http://www.example.com/ssssssssssssssssssssssssssssssssssss),

[This is a really long footnote][fffffffffffffffffffffffffffffffffffffffffffffffffffffffff],
").
Definition out_0018 : str := (lit "Ever since I sold the first MacBook, it felt like I was fighting Windows audio drivers
constantly. Between latency issues, BSODs due to Focusrite's unstable audio interface
drivers, more BSODs trying to get around [multiple audio interface setups in software](
https://help.ableton.com/hc/en-us/articles/209071609-Using-Aggregate-Devices-and-multiple-audio-interfaces),
I started steering away from in-the-box production and started looking into hardware.

[This is a really long URL](
http://www.example.com/ssssssssssssssssssssssssssssssssssss),

[This is a really long footnote][
fffffffffffffffffffffffffffffffffffffffffffffffffffffffff],
").
Example file_0018 : reformat_markdown_text 100 in_0018 (WInt 88) = Ok out_0018.
Proof. vm_compute. reflexivity. Qed.
Example file_0018_again : reformat_markdown_text 100 out_0018 (WInt 88) = Ok out_0018.
Proof. vm_compute. reflexivity. Qed.

Definition in_0019 : str := (lit "| COLUMN 1 | COLUMN 2 | COLUMN 3 |
|:---------|:--------:|---------:|
|      a   |    a     |   a      |
|  aa      |  aa      |      aa  |
|  aaa     |    aaa   | aaa      |
| aaaaaaaaaaaaaaaaa|aaaaaaaaaaaaaaaaa|aaaaaaaaaaaaaaaaa|

| COLUMN 01 | COLUMN 02 | COLUMN 03 |
|:---|:----:|------:|
|      a   |    a     |   a      |
|  aa    |  aa      |      aa  |
|  aaa    |    aaa   | aaa      |
| aaaaaaaaaaaaaaaaa|aaaaaaaaaaaaaaaaa|aaaaaaaaaaaaaaaaa|

| C |
|---|
| aaaaaaaaaaaaaa|
").
Definition out_0019 : str := (lit "| COLUMN 1          |     COLUMN 2      |          COLUMN 3 |
|:------------------|:-----------------:|------------------:|
| a                 |         a         |                 a |
| aa                |        aa         |                aa |
| aaa               |        aaa        |               aaa |
| aaaaaaaaaaaaaaaaa | aaaaaaaaaaaaaaaaa | aaaaaaaaaaaaaaaaa |

| COLUMN 01         |     COLUMN 02     |         COLUMN 03 |
|:------------------|:-----------------:|------------------:|
| a                 |         a         |                 a |
| aa                |        aa         |                aa |
| aaa               |        aaa        |               aaa |
| aaaaaaaaaaaaaaaaa | aaaaaaaaaaaaaaaaa | aaaaaaaaaaaaaaaaa |

|       C        |
|----------------|
| aaaaaaaaaaaaaa |
").
Example file_0019 : reformat_markdown_text 100 in_0019 (WInt 88) = Ok out_0019.
Proof. vm_compute. reflexivity. Qed.
Example file_0019_again : reformat_markdown_text 100 out_0019 (WInt 88) = Ok out_0019.
Proof. vm_compute. reflexivity. Qed.

Definition in_0020 : str := (lit "This is a paragraph  
This is another 
paragraph  

This
is
all
part
of
this
paragraph
but  
this isn't").
Definition out_0020 : str := (lit "This is a paragraph  
This is another paragraph  

This is all part of this paragraph but  
this isn't
").
Example file_0020 : reformat_markdown_text 100 in_0020 (WInt 88) = Ok out_0020.
Proof. vm_compute. reflexivity. Qed.
Example file_0020_again : reformat_markdown_text 100 out_0020 (WInt 88) = Ok out_0020.
Proof. vm_compute. reflexivity. Qed.

Definition in_0021 : str := (lit "***
---
___").
Definition out_0021 : str := (lit "****************************************************************************************
----------------------------------------------------------------------------------------
________________________________________________________________________________________
").
Example file_0021 : reformat_markdown_text 100 in_0021 (WInt 88) = Ok out_0021.
Proof. vm_compute. reflexivity. Qed.
Example file_0021_again : reformat_markdown_text 100 out_0021 (WInt 88) = Ok out_0021.
Proof. vm_compute. reflexivity. Qed.

Definition in_0022 : str := (lit "[link]: /link").
Definition out_0022 : str := (lit "[link]: /link
").
Example file_0022 : reformat_markdown_text 100 in_0022 (WInt 88) = Ok out_0022.
Proof. vm_compute. reflexivity. Qed.
Example file_0022_again : reformat_markdown_text 100 out_0022 (WInt 88) = Ok out_0022.
Proof. vm_compute. reflexivity. Qed.

Definition in_0023 : str := (lit "> block quote
Heading
===
").
Definition out_0023 : str := (lit "> block quote

Heading
=======
").
Example file_0023 : reformat_markdown_text 100 in_0023 (WInt 88) = Ok out_0023.
Proof. vm_compute. reflexivity. Qed.
Example file_0023_again : reformat_markdown_text 100 out_0023 (WInt 88) = Ok out_0023.
Proof. vm_compute. reflexivity. Qed.

Example atx_heading_test_simple_1 :
  section_reformatted ATX_HEADING (lit "   # Heading    ") (WInt 88) = Ok (lit "# Heading").
Proof. vm_compute. reflexivity. Qed.

Example atx_heading_test_simple_2 :
  section_reformatted ATX_HEADING (lit "# Heading") (WInt 88) = Ok (lit "# Heading").
Proof. vm_compute. reflexivity. Qed.

Example atx_heading_test_technically_invalid_1 :
  section_reformatted ATX_HEADING (lit "   #Heading    ") (WInt 88) = Ok (lit "# Heading").
Proof. vm_compute. reflexivity. Qed.

Example block_quote_test_basic_1 :
  section_reformatted BLOCK_QUOTE (lit "> > Double Indented > Quote
>
>>
>Quote \>
More Quote
>>> Triple Indented Quote
> > Part of that Triple Indented Quote") (WInt 35) = Ok (lit "> > Double Indented > Quote
>
> >
> Quote \> More Quote
> >> Triple Indented Quote Part of
> >> that Triple Indented Quote").
Proof. vm_compute. reflexivity. Qed.

Example block_quote_test_basic_2 :
  section_reformatted BLOCK_QUOTE (lit "> > Double Indented > Quote
>
> >
> Quote \> More Quote
> >> Triple Indented Quote Part of
> >> that Triple Indented Quote") (WInt 35) = Ok (lit "> > Double Indented > Quote
>
> >
> Quote \> More Quote
> >> Triple Indented Quote Part of
> >> that Triple Indented Quote").
Proof. vm_compute. reflexivity. Qed.

Example fenced_code_block_test_backtick_1 :
  section_reformatted FENCED_CODE_BLOCK (lit "```python   
# Very powerful spell   
if necromancer:   
    raise Dead()  
```") (WInt 88) = Ok (lit "```python
# Very powerful spell
if necromancer:
    raise Dead()
```").
Proof. vm_compute. reflexivity. Qed.

Example fenced_code_block_test_backtick_2 :
  section_reformatted FENCED_CODE_BLOCK (lit "```python
# Very powerful spell
if necromancer:
    raise Dead()
```") (WInt 88) = Ok (lit "```python
# Very powerful spell
if necromancer:
    raise Dead()
```").
Proof. vm_compute. reflexivity. Qed.

Example fenced_code_block_test_tilda_1 :
  section_reformatted FENCED_CODE_BLOCK (lit "~~~~python   
# Very powerful spell   
if necromancer:   
    raise Dead()  
```
~~~~") (WInt 88) = Ok (lit "~~~~python
# Very powerful spell
if necromancer:
    raise Dead()
```
~~~~").
Proof. vm_compute. reflexivity. Qed.

Example fenced_code_block_test_tilda_2 :
  section_reformatted FENCED_CODE_BLOCK (lit "~~~~python
# Very powerful spell
if necromancer:
    raise Dead()
```
~~~~") (WInt 88) = Ok (lit "~~~~python
# Very powerful spell
if necromancer:
    raise Dead()
```
~~~~").
Proof. vm_compute. reflexivity. Qed.

Example horizontal_line_test_too_short_1 :
  section_reformatted THEMATIC_BREAK (lit "---") (WInt 50) = Ok (lit "--------------------------------------------------").
Proof. vm_compute. reflexivity. Qed.

Example horizontal_line_test_too_long_1 :
  section_reformatted THEMATIC_BREAK (lit "----------------------------------------------------------------------------------------------------") (WInt 50) = Ok (lit "--------------------------------------------------").
Proof. vm_compute. reflexivity. Qed.

Example horizontal_line_test_infinity_1 :
  section_reformatted THEMATIC_BREAK (lit "----------") WInf = Ok (lit "---").
Proof. vm_compute. reflexivity. Qed.

Example indented_code_block_test_simple_1 :
  section_reformatted INDENTED_CODE_BLOCK (lit "    import goods    

    tariffs = good.audit()   
") (WInt 88) = Ok (lit "    import goods

    tariffs = good.audit()").
Proof. vm_compute. reflexivity. Qed.

Example indented_code_block_test_simple_2 :
  section_reformatted INDENTED_CODE_BLOCK (lit "    import goods

    tariffs = good.audit()") (WInt 88) = Ok (lit "    import goods

    tariffs = good.audit()").
Proof. vm_compute. reflexivity. Qed.

Example link_reference_definition_test_basic_1 :
  section_reformatted LINK_REFERENCE_DEFINITION (lit "   [footnote1]: http://example.com     ") (WInt 88) = Ok (lit "[footnote1]: http://example.com").
Proof. vm_compute. reflexivity. Qed.

Example link_reference_definition_test_basic_2 :
  section_reformatted LINK_REFERENCE_DEFINITION (lit "[footnote1]: http://example.com") (WInt 88) = Ok (lit "[footnote1]: http://example.com").
Proof. vm_compute. reflexivity. Qed.

Example list_test_basic_asterisk_1 :
  section_reformatted BULLET_LIST (lit "* I am a list that is pretty badly
formatted
* There are all sorts of problems that don't make this look very nice, like
bullets that break across lines and missing spaces.
* Which also is a problem when working with nested lists since they could be
missing leading spaces and make things look extra confusing.") (WInt 50) = Ok (lit "* I am a list that is pretty badly formatted
* There are all sorts of problems that don't make
  this look very nice, like bullets that break
  across lines and missing spaces.
* Which also is a problem when working with nested
  lists since they could be missing leading spaces
  and make things look extra confusing.").
Proof. vm_compute. reflexivity. Qed.

Example list_test_basic_asterisk_2 :
  section_reformatted BULLET_LIST (lit "* I am a list that is pretty badly formatted
* There are all sorts of problems that don't make
  this look very nice, like bullets that break
  across lines and missing spaces.
* Which also is a problem when working with nested
  lists since they could be missing leading spaces
  and make things look extra confusing.") (WInt 50) = Ok (lit "* I am a list that is pretty badly formatted
* There are all sorts of problems that don't make
  this look very nice, like bullets that break
  across lines and missing spaces.
* Which also is a problem when working with nested
  lists since they could be missing leading spaces
  and make things look extra confusing.").
Proof. vm_compute. reflexivity. Qed.

Example list_test_basic_dash_1 :
  section_reformatted BULLET_LIST (lit "- I am a list that is pretty badly
formatted
- There are all sorts of problems that don't make this look very nice, like
bullets that break across lines and missing spaces.
- Which also is a problem when working with nested lists since they could be
missing leading spaces and make things look extra confusing.") (WInt 50) = Ok (lit "- I am a list that is pretty badly formatted
- There are all sorts of problems that don't make
  this look very nice, like bullets that break
  across lines and missing spaces.
- Which also is a problem when working with nested
  lists since they could be missing leading spaces
  and make things look extra confusing.").
Proof. vm_compute. reflexivity. Qed.

Example list_test_basic_dash_2 :
  section_reformatted BULLET_LIST (lit "- I am a list that is pretty badly formatted
- There are all sorts of problems that don't make
  this look very nice, like bullets that break
  across lines and missing spaces.
- Which also is a problem when working with nested
  lists since they could be missing leading spaces
  and make things look extra confusing.") (WInt 50) = Ok (lit "- I am a list that is pretty badly formatted
- There are all sorts of problems that don't make
  this look very nice, like bullets that break
  across lines and missing spaces.
- Which also is a problem when working with nested
  lists since they could be missing leading spaces
  and make things look extra confusing.").
Proof. vm_compute. reflexivity. Qed.

Example list_test_basic_plus_1 :
  section_reformatted BULLET_LIST (lit "+ I am a list that is pretty badly
formatted
+ There are all sorts of problems that don't make this look very nice, like
bullets that break across lines and missing spaces.
+ Which also is a problem when working with nested lists since they could be
missing leading spaces and make things look extra confusing.") (WInt 50) = Ok (lit "+ I am a list that is pretty badly formatted
+ There are all sorts of problems that don't make
  this look very nice, like bullets that break
  across lines and missing spaces.
+ Which also is a problem when working with nested
  lists since they could be missing leading spaces
  and make things look extra confusing.").
Proof. vm_compute. reflexivity. Qed.

Example list_test_basic_plus_2 :
  section_reformatted BULLET_LIST (lit "+ I am a list that is pretty badly formatted
+ There are all sorts of problems that don't make
  this look very nice, like bullets that break
  across lines and missing spaces.
+ Which also is a problem when working with nested
  lists since they could be missing leading spaces
  and make things look extra confusing.") (WInt 50) = Ok (lit "+ I am a list that is pretty badly formatted
+ There are all sorts of problems that don't make
  this look very nice, like bullets that break
  across lines and missing spaces.
+ Which also is a problem when working with nested
  lists since they could be missing leading spaces
  and make things look extra confusing.").
Proof. vm_compute. reflexivity. Qed.

Example list_test_make_bullets_same_1 :
  section_reformatted BULLET_LIST (lit "* Test
+ Test
- Test") (WInt 88) = Ok (lit "* Test
* Test
* Test").
Proof. vm_compute. reflexivity. Qed.

Example list_test_make_bullets_same_2 :
  section_reformatted BULLET_LIST (lit "* Test
* Test
* Test") (WInt 88) = Ok (lit "* Test
* Test
* Test").
Proof. vm_compute. reflexivity. Qed.

Example list_test_correct_numbering_1 :
  section_reformatted ORDERED_LIST (lit "1. Test
1. Test
4. Test") (WInt 88) = Ok (lit "1. Test
2. Test
3. Test").
Proof. vm_compute. reflexivity. Qed.

Example list_test_correct_numbering_2 :
  section_reformatted ORDERED_LIST (lit "1. Test
2. Test
3. Test") (WInt 88) = Ok (lit "1. Test
2. Test
3. Test").
Proof. vm_compute. reflexivity. Qed.

Example list_test_nested_unordered_1 :
  section_reformatted BULLET_LIST (lit "* This is a really long line that with terrible
spacing
  - This is also a really long line with terrible
spacing
  * This one's ok though
- So is this one") (WInt 50) = Ok (lit "* This is a really long line that with terrible
  spacing
  - This is also a really long line with terrible
    spacing
  - This one's ok though
* So is this one").
Proof. vm_compute. reflexivity. Qed.

Example list_test_nested_unordered_2 :
  section_reformatted BULLET_LIST (lit "* This is a really long line that with terrible
  spacing
  - This is also a really long line with terrible
    spacing
  - This one's ok though
* So is this one") (WInt 50) = Ok (lit "* This is a really long line that with terrible
  spacing
  - This is also a really long line with terrible
    spacing
  - This one's ok though
* So is this one").
Proof. vm_compute. reflexivity. Qed.

Example list_test_nested_ordered_1 :
  section_reformatted ORDERED_LIST (lit "1. This is a really long line that with terrible
spacing
   1. This is also a really long line with terrible
spacing
   1. This one's ok though
   1. This one isn't
great
1. So is this one") (WInt 50) = Ok (lit "1. This is a really long line that with terrible
   spacing
   1. This is also a really long line with
      terrible spacing
   2. This one's ok though
   3. This one isn't great
2. So is this one").
Proof. vm_compute. reflexivity. Qed.

Example list_test_nested_ordered_2 :
  section_reformatted ORDERED_LIST (lit "1. This is a really long line that with terrible
   spacing
   1. This is also a really long line with
      terrible spacing
   2. This one's ok though
   3. This one isn't great
2. So is this one") (WInt 50) = Ok (lit "1. This is a really long line that with terrible
   spacing
   1. This is also a really long line with
      terrible spacing
   2. This one's ok though
   3. This one isn't great
2. So is this one").
Proof. vm_compute. reflexivity. Qed.

Example list_test_weird_indenting_1 :
  section_reformatted BULLET_LIST (lit "* This is a really long line that with terrible
spacing
     * Let's make sure this doesn't stay here
  * This is also a really long line with terrible
spacing
     - Let's make sure this does stay here
  - This one's ok though, minus the symbol
- So is this one") (WInt 50) = Ok (lit "* This is a really long line that with terrible
  spacing
  * Let's make sure this doesn't stay here
  * This is also a really long line with terrible
    spacing
    - Let's make sure this does stay here
  * This one's ok though, minus the symbol
* So is this one").
Proof. vm_compute. reflexivity. Qed.

Example list_test_weird_indenting_2 :
  section_reformatted BULLET_LIST (lit "* This is a really long line that with terrible
  spacing
  * Let's make sure this doesn't stay here
  * This is also a really long line with terrible
    spacing
    - Let's make sure this does stay here
  * This one's ok though, minus the symbol
* So is this one") (WInt 50) = Ok (lit "* This is a really long line that with terrible
  spacing
  * Let's make sure this doesn't stay here
  * This is also a really long line with terrible
    spacing
    - Let's make sure this does stay here
  * This one's ok though, minus the symbol
* So is this one").
Proof. vm_compute. reflexivity. Qed.

Example list_test_links_1 :
  section_reformatted BULLET_LIST (lit "* [URL](http://example.com/very/nested/directory)
* [URL](http://example.com)") (WInt 30) = Ok (lit "* [URL](
  http://example.com/very/nested/directory)
* [URL](http://example.com)").
Proof. vm_compute. reflexivity. Qed.

Example list_test_links_2 :
  section_reformatted BULLET_LIST (lit "* [URL](
  http://example.com/very/nested/directory)
* [URL](http://example.com)") (WInt 30) = Ok (lit "* [URL](
  http://example.com/very/nested/directory)
* [URL](http://example.com)").
Proof. vm_compute. reflexivity. Qed.

Example list_test_indented_1 :
  section_reformatted BULLET_LIST (lit "  * Entry 1
* Entry 2") (WInt 88) = Ok (lit "* Entry 1
* Entry 2").
Proof. vm_compute. reflexivity. Qed.

Example list_test_indented_2 :
  section_reformatted BULLET_LIST (lit "* Entry 1
* Entry 2") (WInt 88) = Ok (lit "* Entry 1
* Entry 2").
Proof. vm_compute. reflexivity. Qed.

Example list_test_indented_numerics_1 :
  section_reformatted ORDERED_LIST (lit "  1. Test
  2. Test
 10. Test") (WInt 88) = Ok (lit "1. Test
2. Test
3. Test").
Proof. vm_compute. reflexivity. Qed.

Example list_test_indented_numerics_2 :
  section_reformatted ORDERED_LIST (lit "1. Test
2. Test
3. Test") (WInt 88) = Ok (lit "1. Test
2. Test
3. Test").
Proof. vm_compute. reflexivity. Qed.

Example list_test_ordered_list_with_nine_entries_1 :
  section_reformatted ORDERED_LIST (lit "1. a
2. b
3. c
4. d
5. e
6. f
7. g
8. h
9. i") (WInt 88) = Ok (lit "1. a
2. b
3. c
4. d
5. e
6. f
7. g
8. h
9. i").
Proof. vm_compute. reflexivity. Qed.

Example list_test_ordered_list_with_nine_entries_2 :
  section_reformatted ORDERED_LIST (lit "1. a
2. b
3. c
4. d
5. e
6. f
7. g
8. h
9. i") (WInt 88) = Ok (lit "1. a
2. b
3. c
4. d
5. e
6. f
7. g
8. h
9. i").
Proof. vm_compute. reflexivity. Qed.

Example list_test_nested_ordered_bad_indent_1 :
  section_reformatted ORDERED_LIST (lit "1. This is a really long line that with terrible
spacing
  1. This is also a really long line with terrible
spacing
  1. This one's ok though
  1. This one isn't
great
1. So is this one") (WInt 50) = Ok (lit "1. This is a really long line that with terrible
   spacing
2. This is also a really long line with terrible
   spacing
3. This one's ok though
4. This one isn't great
5. So is this one").
Proof. vm_compute. reflexivity. Qed.

Example list_test_nested_ordered_bad_indent_2 :
  section_reformatted ORDERED_LIST (lit "1. This is a really long line that with terrible
   spacing
2. This is also a really long line with terrible
   spacing
3. This one's ok though
4. This one isn't great
5. So is this one") (WInt 50) = Ok (lit "1. This is a really long line that with terrible
   spacing
2. This is also a really long line with terrible
   spacing
3. This one's ok though
4. This one isn't great
5. So is this one").
Proof. vm_compute. reflexivity. Qed.

Example paragraph_test_paragraph_1 :
  section_reformatted PARAGRAPH (lit "This is a test string. It must have a [footnote][footnote] that breaks across a line and a [URL](http://example.com) so we can ensure that we get good coverage.") (WInt 50) = Ok (lit "This is a test string. It must have a [footnote][
footnote] that breaks across a line and a [URL](
http://example.com) so we can ensure that we get
good coverage.").
Proof. vm_compute. reflexivity. Qed.

Example paragraph_test_paragraph_2 :
  section_reformatted PARAGRAPH (lit "This is a test string. It must have a [footnote][
footnote] that breaks across a line and a [URL](
http://example.com) so we can ensure that we get
good coverage.") (WInt 50) = Ok (lit "This is a test string. It must have a [footnote][
footnote] that breaks across a line and a [URL](
http://example.com) so we can ensure that we get
good coverage.").
Proof. vm_compute. reflexivity. Qed.

Example paragraph_test_hyperlink_breaking_1 :
  section_reformatted PARAGRAPH (lit "[I'm a hyperlink broken across multiple lines.](
test.htm)") (WInt 88) = Ok (lit "[I'm a hyperlink broken across multiple lines.](test.htm)").
Proof. vm_compute. reflexivity. Qed.

Example paragraph_test_hyperlink_breaking_2 :
  section_reformatted PARAGRAPH (lit "[I'm a hyperlink broken across multiple lines.](test.htm)") (WInt 88) = Ok (lit "[I'm a hyperlink broken across multiple lines.](test.htm)").
Proof. vm_compute. reflexivity. Qed.

Example paragraph_test_semantic_paragraph_1 :
  section_reformatted PARAGRAPH (lit "Some words with a double
space after them.  ") (WInt 88) = Ok (lit "Some words with a double space after them.  ").
Proof. vm_compute. reflexivity. Qed.

Example paragraph_test_semantic_paragraph_2 :
  section_reformatted PARAGRAPH (lit "Some words with a double space after them.  ") (WInt 88) = Ok (lit "Some words with a double space after them.  ").
Proof. vm_compute. reflexivity. Qed.

Example separator_test_simple_1 :
  section_reformatted BLANK_LINE (lit "    ") (WInt 88) = Ok (lit "").
Proof. vm_compute. reflexivity. Qed.

Example setext_heading_test_simple_1 :
  section_reformatted SETEXT_HEADING (lit "   Heading    
---") (WInt 88) = Ok (lit "Heading
-------").
Proof. vm_compute. reflexivity. Qed.

Example setext_heading_test_simple_2 :
  section_reformatted SETEXT_HEADING (lit "Heading
-------") (WInt 88) = Ok (lit "Heading
-------").
Proof. vm_compute. reflexivity. Qed.

Example setext_heading_test_singular_character_underlined_1 :
  section_reformatted SETEXT_HEADING (lit "A
----") (WInt 88) = Ok (lit "A
-").
Proof. vm_compute. reflexivity. Qed.

Example setext_heading_test_singular_character_underlined_2 :
  section_reformatted SETEXT_HEADING (lit "A
-") (WInt 88) = Ok (lit "A
-").
Proof. vm_compute. reflexivity. Qed.

Example setext_heading_test_multiline_heading_1 :
  section_reformatted SETEXT_HEADING (lit "This is a long
heading
--") (WInt 12) = Ok (lit "This is a
long heading
------------").
Proof. vm_compute. reflexivity. Qed.

Example setext_heading_test_multiline_heading_2 :
  section_reformatted SETEXT_HEADING (lit "This is a
long heading
------------") (WInt 12) = Ok (lit "This is a
long heading
------------").
Proof. vm_compute. reflexivity. Qed.

Example table_test_table_1 :
  section_reformatted TABLE (lit "|Heading 1|Heading 2|
|--|--|
|Short|Very long even line|
|Very long odd line|Short|") (WInt 88) = Ok (lit "|     Heading 1      |      Heading 2      |
|--------------------|---------------------|
| Short              | Very long even line |
| Very long odd line | Short               |").
Proof. vm_compute. reflexivity. Qed.

Example table_test_table_2 :
  section_reformatted TABLE (lit "|     Heading 1      |      Heading 2      |
|--------------------|---------------------|
| Short              | Very long even line |
| Very long odd line | Short               |") (WInt 88) = Ok (lit "|     Heading 1      |      Heading 2      |
|--------------------|---------------------|
| Short              | Very long even line |
| Very long odd line | Short               |").
Proof. vm_compute. reflexivity. Qed.

Example table_test_aligned_table_1 :
  section_reformatted TABLE (lit "| L | C | R |
|:--|:-:|--:|
| a | a | a|
|abcde | abcde|abcde|") (WInt 88) = Ok (lit "| L     |   C   |     R |
|:------|:-----:|------:|
| a     |   a   |     a |
| abcde | abcde | abcde |").
Proof. vm_compute. reflexivity. Qed.

Example table_test_aligned_table_2 :
  section_reformatted TABLE (lit "| L     |   C   |     R |
|:------|:-----:|------:|
| a     |   a   |     a |
| abcde | abcde | abcde |") (WInt 88) = Ok (lit "| L     |   C   |     R |
|:------|:-----:|------:|
| a     |   a   |     a |
| abcde | abcde | abcde |").
Proof. vm_compute. reflexivity. Qed.

(** /repo/README.md is kept formatted with the tool itself (CONTRIBUTING.md). *)
Definition doc_readme : str := (lit "# MarkFlow

Welcome to **MarkFlow**. This tool automatically reformats your **Markdown** to provide
consistent looking **Markdown** files that look pretty similar to HTML that would be
generated by them.

## Quickstart

To use this tool, install it with pip then run `markflow`:

```shell
pip install markflow
markflow SOMETHING.md
```

To install from source, assuming you already have `poetry` installed, from the project
directory, run:

```shell
poetry install
poetry run markflow
```

Just want to see if there will be any changes? Use the `--check` flag:

```shell
markflow --check $PATH_TO_MARKDOWN_FILE
```

For all features, we've got a help:

```shell
markflow --help
```

## Enforced Rules

The tool ensures that the following rules are enforced for each different type of
Markdown section. For all sections, trailing spaces on each line are removed. It also
ensures that **Markdown** files end with a single newline and newlines are all `'\n'`.

This tool uses the **Markdown** standard defined by [CommonMark 0.29][commonmark_spec].
It is expected to evolve with the standard and this section will be updated as support
is added. If you notice any discrepancies, please open an issue.

[commonmark_spec]: https://spec.commonmark.org/0.29/

### Block Quotes

Block quotes are fixed up with proper indentation markers for indented quotes, quote
indicators have any space between them removed, and unescaped `>` that could be confused
with quote markers are escaped. *e.g.*:

```markdown
>
> > Text >
> >
>
> > Ice Cream \> 0O0>
>
```

becomes:

```markdown
>
>> Text \>
>>
>
>> Ice Cream \>  0O0>
>
```

### Code Blocks

Fenced codeblocks have any whitespace stripped from their markers and then printed out
as usual.

````markdown
``` markdown
# Markdown code
  ```
````

becomes

````markdown
```markdown
# Markdown code
```
````

Indented code blocks simply have their trailing whitespace removed.

### Footnotes (or Link Reference Definitions)

Footnotes will have their whitespace corrected and their titles wrapped. The tool will
however respect what line URLs should appear on, even if they overflow. For example, the
next two examples would be unchanged.

```markdown
[really_really_really_long_link_that_could_go_on_a_new_line]: /but/doesnt/because/the/tool/understands/that/you/may/not/want/that
```

```markdown
[short_link]:
/that/stays/on/separate/lines
'Even if title would fit'
```

Titles will be kept on whatever line you write them on, as long as they wouldn't be
wrapped off the line.

```markdown
[really_really_really_long_link_that_could_go_on_a_new_line]: /but/doesnt/because/the/tool/understands/that/you/may/not/want/that ""But the title is moved to the next line and itself is wrapped because it is also really long.""
```

becomes:

```markdown
[really_really_really_long_link_that_could_go_on_a_new_line]: /but/doesnt/because/the/tool/understands/that/you/may/not/want/that
""But the title is moved to the next line and itself is wrapped because it is also really
long.""
```

### Headings

Heading lines begin and end with no whitespace. If you're using ATX headings (leading
`#`s), but will correct missing or extra spaces between the octothorpe's and the
heading.

```markdown
#Non-Standard Heading
```

becomes

```markdown
# Non-Standard Heading
```

If you are using setext headings (*i.e.*, underlined headings), they will automatically
be fixed to ensure underlining matches the heading length. *e.g.*:

```markdown
Heading 1
--
```

becomes

```markdown
Heading 1
---------
```

If you have a heading that extends beyond an entire line, **MarkFlow** will wrap it for
you.

```markdown
This is a really long heading that I had to make up so that it would be at least 88 characters long
--
```

becomes

```markdown
This is a really long heading that I had to make up so that it would be at least 88
characters long
-----------------------------------------------------------------------------------
```

### Lists

Lists will be corrected to proper indentation. In addition, ordered lists will be
properly numbered and bullet lists will be reformatted to use consistent bullets. Line
lengths are also enforces. *e.g.*:

```markdown
2. One
    * Asterisk
  - Dash
1. Two
5. Three
```

becomes

```markdown
2. One
  * Asterisk
  * Dash
3. Two
4. Three
```

CommonMark doesn't allow lists to start with 0. That's not really a big deal for this
tool, so we are OK with that. If this causes you issues, please let us know by opening
an [issue][issues].

### Paragraphs

Paragraphs are reformatted to ensure they are the proper length. URLs and footnotes are
properly split across lines. Inline code is placed all on a singular line. *e.g.*
(assuming a line length of 1):

```markdown
test `test =
1` [url](http://example.com)
```

becomes:

```markdown
test
`test = 1`
[url](
http://example.com)
```

### Separators

Separating lines (*i.e.*, blank lines) contain only new lines, removing any horizontal
whitespace.

### Tables

Tables are reformatted to ensure proper width and headings are centered and all cells
have at minimum one space between their contents and column separators. Alignment is
supported too! *e.g.*:

```markdown
|L|C|R|N|
|:--|:-:|--:|---|
|a|a|a|a|
|aa|aa|aa|aa|
|abcde|abcde|abcde|abcde|
```

becomes:

```markdown
| L     |   C   |     R |   N   |
|:------|:-----:|------:|-------|
| a     |   a   |     a | a     |
| aa    |  aa   |    aa | aa    |
| abcde | abcde | abcde | abcde |
```

### Thematic Breaks

Thematic breaks are extended or reduced to match the length of the document. If line
length is set to infinity, it will instead use 3 of the separating character which must
be one of `-`, `_`, or `*`.

```markdown
-- - -
```

becomes:

```markdown
----------------------------------------------------------------------------------------
```

## API Reference

The tool also provides a function to reformat **Markdown** strings yourself.

```python
from markflow import reformat_markdown_text

markdown = ""   # Header 1""
nice_markdown = reformat_markdown_text(markdown, width=88)
```

## Contributing

To contribute to this project, check out our [contributing guide](CONTRIBUTING.md).

## Issues

If you run into an issue running a **Markdown** file, feel free to open an [issue][
issues]. If you can include the faulting file, that will make it so much easier to
debug.

This script can help in anonymizing your file if you have any confidential information
in it.

```python
#!/usr/bin/env python3
"""""" Anonymize file XXXX.md and output it to XXXX.out.md """"""
import pathlib
import random
import string

FILE_NAME = ""XXXX.md""
input_path = pathlib.Path(FILE_NAME)
output_path = pathlib.Path("".out."".join(FILE_NAME.rsplit(""."", maxsplit=1)))
text = input_path.read_text()
output = """"

for char in text:
    if char in string.ascii_lowercase:
        char = random.choice(string.ascii_lowercase)
    elif char in string.ascii_uppercase:
        char = random.choice(string.ascii_uppercase)
    output += char
output_path.write_text(output)
```

[issues]: https://github.com/duo-labs/markflow/issues

## Implementation

To read more about how the tool works, checkout the [implementation outline](
IMPLEMENTATION.md).

## Credits

This tool was inspired by a coworker not enjoying having to manually reformat
**Markdown** files. He wanted a tool that would enforce it like [**black**][black] does
for **Python** code. That is why the line length default is 88.

[black]: https://black.readthedocs.io/en/latest/

## A Bonus Note on Block Quote Formatting

Escaping `>` is especially important for the tool itself as otherwise updated block
quotes could be too deep. For instance, incorrect wrapping here could result in an extra
indented block of code.

```markdown
> Please don't wrap after this period. >
> Because I don't want to be a double quote.
```

becomes:

```markdown
> Please don't wrap after this period.
> > Because I don't want to be a
> double quote.
```

which would format to:

```markdown
> Please don't wrap after this period.
> > Because I don't want to be a
> > double quote.
```

Of course, if the tool tried that, it would throw an exception since it double checks
that if it were to be rerun the output would not change, at which point, hopefully, dear
reader, you would open an issue. But I get it if you don't want to. I've been there.
").
Example doc_readme_unchanged : reformat_markdown_text 100 doc_readme (WInt 88) = Ok doc_readme.
Proof. vm_compute. reflexivity. Qed.

(** /repo/CONTRIBUTING.md is kept formatted with the tool itself (CONTRIBUTING.md). *)
Definition doc_contributing : str := (lit "# Contributing to MarkFlow

The following are the contributing guidelines when making changes to this project.

Development depends on the installation of **make**, for coordinating execution of the
underlying tools, **poetry**, for managing our **Python** environments and the
**MarkFlow** package itself, and the supported versions of **Python** (current, 3.6,
3.7, 3.8, and 3.9). You can generally get away with only having one version of
**Python** installed and testing against that. The GitHub builds will validate your
changes against all versions of **Python** anyway.

## Making Changes

([Step 0: Checkout the documentation on the implementation of the tool.](
IMPLEMENTATION.md))

To check to see if your submission is buildable, simply run `make`. If everything
passes, you are good to go on to [Submitting Changes](#submitting-changes). To
understand what that's doing, though, read on.

### Running Tools

All tools that are available in the poetry environment (including **MarkFlow**) can
easily be added to your command line as the commands themselves by running
`. poetry-aliases.sh`. An additional alias, `markflow-markflow`, is also provided to
easily run **MarkFlow** against non-test files.

### Running Audits

We run checks against every commit to ensure all files follow standards we enforce. The
audits we run are as follows:

```shell
# Ensure all Markdown files would not be reformatted by us :)
make markflow
# Ensure all python files would not be reformatted by black
make black
# Ensure our import are all sorted
make isort
# Ensure all pythons follow a few other rules enforced by flake8
make flake
# Run all of the above. Every command will be run regardless of the others failing.
make audits
```

The poetry environment comes with [**black**][black], and of course **MarkFlow**, so you
can quickly run the tools with `poetry run black` or `poetry run markflow` or just drop
into a shell with them by running `poetry shell`.

[black]: https://black.readthedocs.io/en/latest/

### Running Tests

We test our code through unit and system tests that are run by [**pytest**][pytest] and
strict type checking enforced via [**mypy**][mypy]. The commands to run them are as
follows:

```shell
# Run tests in /tests
make pytests
# Run mypy against the markflow library
make mypy_lib
# Run mypy against our tests
make mypy_tests
# Run all of the above in order, exiting on the first failure.
make tests
```

Why do we exit on first failure unlike audits? Tests are noisier and this makes the
failures more obvious. In most cases the audits are unlikely to fill up your screen, but
even then.

[mypy]: http://mypy-lang.org/
[pytest]: https://docs.pytest.org/en/latest/

### Submitting Changes

Once you've made all your changes, create a [pull request][pr]. Someone will be with you
shortly.

If you are correcting a bug you've seen when processing a **Markdown** file, add it and
the expected output to `tests/files`. In the folder, inputs and outputs are matched up
based on their leading numeric. So, `0010_in_tests.md`'s expected output is
`0010_out_tests.md`. The [README has a section on anonymizing text](README.md#issues) if
you're worried about leaking sensitive information.

[pr]: https://github.com/duo-labs/markflow/pulls

## Proposing Changes

If you want to propose a rule change, like making inline code blocks split across lines,
feel free to open an [issue][issues].

[issues]: https://github.com/duo-labs/markflow/issues

# Duplicating CI Locally

The build in CI simply runs the make commands in the container defined by the root
`Dockerfile`. You'll of course need [**docker**][docker]. Once you do, to build the
image run:

```shell
make container
```

To run commands in the container, you'll need to mount our source. The following should
do the trick when run from the project's directory:

```shell
docker run -v ""`pwd`:/src"" -w /src markflow_builder make
# Build the wheel
docker run -v ""`pwd`:/src"" -w /src markflow_builder make package
```

[docker]: https://www.docker.com/
").
Example doc_contributing_unchanged : reformat_markdown_text 100 doc_contributing (WInt 88) = Ok doc_contributing.
Proof. vm_compute. reflexivity. Qed.

(** /repo/IMPLEMENTATION.md is kept formatted with the tool itself (CONTRIBUTING.md). *)
Definition doc_implementation : str := (lit "# MarkFlow Behind Scenes

MarkFlow is a pretty simple tool that formats code in three steps:

* [Parse the text](#parsing-markdown)
* [Reformat each section and stitch the sections back together](#reformatting-sections)
* [Rerun with the output as the input to guarantee consistency](#ensuring-consistency)

A potential future step would be to render the text and ensure consistency outside of
some rules (see [Future Architecture Ideas](#future-architecture-ideas)).

## Parsing Markdown

We parse **Markdown** by continuously iterating over a series of splitter functions.
Each function corresponds to a different [CommonMark][commonmark_spec] section type.
They take in a list of lines if that list starts with their section type, they return a
`tuple` of that section (as a `list` of lines) and the remaining text (also as a `list`
of lines). We use lists of lines as a performance gain, so we don't have to write (and
execute) `lst = str_.splitlines()` and `""\n"".join(lst)` all over the place. Otherwise,
they return an empty `list` as the first member and the `list` of lines passed in as the
second. Once we detect a section, we continue parsing the remaining lines.

The functions are designed to be mutually exclusive: if one splitter splits the text, no
others should. This isn't really tested (hint, hint), but is hopefully achieved by
adhering to the [CommonMark][commonmark_spec] standard.

[commonmark_spec]: https://spec.commonmark.org/0.29/

## Reformatting Sections

The parsed text is then passed to the formatter class responsible for knowing how to
format its section type. The various enforced rules can be checked out in the [README](
README.md), but most implementations are fairly straightforward. More complicated ones
should be fairly well documented. (If you see one that is confusing, open an [issue][
issues].)

Some section types are recursive, namely lists and block quotes. These end up calling
back into the formatter again. We're not too worried about stack overflows since the
**Python** stack limit and the depth of recursive **Markdown** definitions by human
beings should different by several orders of magnitude (in favor of **Python**).

[issues]: https://github.com/duo-labs/markflow/issues

## Ensuring Consistency

Once everything is reformatted, that output is taken and then run through the parsing
and reformatting steps. The resulting document is then compared to our original
calculation to ensure they are the same. This allows us to be more confident that we
didn't mess up formatting since we calculate the same document structure between the
initial and resulting documents.

## Future Architecture Ideas

Here are some of random ramblings on the future of **MarkFlow**.

### Plugins

The tool supports tables, but they are actually extensions and not a feature of the
[CommonMark][commonmark_spec] spec. Support for plugins could be added with tables being
the first adopter. This is likely not a big deal right now as there are probably not
many people making tables without necessary render extensions that wouldn't want to
still have them prettied up. Nor are people clamoring for support for other extensions
to the language.

[commonmark_spec]: https://spec.commonmark.org/0.29/

### Rendering Consistency

Another nice thing would be to enforce consistent rendering of the input files. Progress
on this has started as it is enforced by most tests, but tables are an extension to
CommonMark and not a part of the library itself, and the [CommonMark validation
library][commonmark_pkg] we are using don't support them. A potential option that makes
even more sense in a plugin architecture would be having individual formatters handle
validating rendering consistency.

If you end up debugging an issue because of this, you can pass `--write-renders` to save
off the inputs. Pass `--dev-help` to see other developer options, if you're curious.

[commonmark_pkg]: https://github.com/readthedocs/commonmark.py
").
Example doc_implementation_unchanged : reformat_markdown_text 100 doc_implementation (WInt 88) = Ok doc_implementation.
Proof. vm_compute. reflexivity. Qed.

(** tests/test_utils.py *)
Example truncate_shorter : truncate_str (lit "123456789") 19 = lit "123456789".
Proof. reflexivity. Qed.
Example truncate_exact : truncate_str (lit "123456789") 9 = lit "123456789".
Proof. reflexivity. Qed.
Example truncate_longer : truncate_str (lit "123456789") 5 = lit "12...".
Proof. reflexivity. Qed.
Example truncate_short : truncate_str (lit "123456789") 2 = lit "..".
Proof. reflexivity. Qed.
Example get_indent_2 : get_indent (lit "  Test") = 2.
Proof. reflexivity. Qed.

Definition toks (l : list (string * bool * bool)) : list tok :=
  map (fun '(s, a, b) => Tok (lit s) a b) l.

Example all_splits :
  wrap (lit ("abc abc abc abc abc abc abc abc abc ``abc ``` abc[0][0] ``abc abc abc abc "
    ++ "<br /><br /> abc abc [url](http://example.com) "
    ++ "abc[url][http://example.com]abc[url][URL][url][URL]  <br/>abc<br/>")) (WInt 50)
  = Ok (lit "abc abc abc abc abc abc abc abc abc
``abc ``` abc[0][0] ``abc abc abc abc <br />
<br />
abc abc [url](http://example.com)abc[url][
http://example.com]abc[url][URL][url][URL] <br/>
abc<br/>").
Proof. vm_compute. reflexivity. Qed.

Example code_split_1 : code_split (lit "a` a `` b` a `b`c") false
  = Ok (toks [("a", false, true); ("` a `` b`", false, false); ("a", true, true);
              ("`b`", true, false); ("c", false, true)]%string).
Proof. vm_compute. reflexivity. Qed.
Example code_split_begin_and_end : code_split (lit "` a `` b` a `b`") false
  = Ok (toks [("` a `` b`", false, false); ("a", true, true);
              ("`b`", true, false)]%string).
Proof. vm_compute. reflexivity. Qed.
Example code_split_sentence : code_split (lit "a` a `` b`. a `b`.c") false
  = Ok (toks [("a", false, true); ("` a `` b`.", false, false); ("a", true, true);
              ("`b`.", true, false); ("c", false, true)]%string).
Proof. vm_compute. reflexivity. Qed.
Example code_split_solo : code_split (lit "` a `` b` a `b` `a") false
  = Ok (toks [("` a `` b`", false, false); ("a", true, true);
              ("`b`", true, false); ("`a", true, true)]%string).
Proof. vm_compute. reflexivity. Qed.
Example link_split_1 : link_split (lit "a[URL][url] b [URL](http://example.com)c") false
  = Ok (toks [("a[URL][", false, true); ("url]", false, false); ("b", true, true);
              ("[URL](", true, true); ("http://example.com)c", false, false)]%string).
Proof. vm_compute. reflexivity. Qed.
Example link_split_sentence :
  link_split (lit "a[URL][url]. b [URL](http://example.com).c") false
  = Ok (toks [("a[URL][", false, true); ("url].", false, false); ("b", true, true);
              ("[URL](", true, true); ("http://example.com).c", false, false)]%string).
Proof. vm_compute. reflexivity. Qed.
Example newline_split_1 : newline_split (lit "a <br /> b <br>c<br/>d") false
  = Ok (toks [("a", false, true); ("<br />", true, false); ("b", true, true);
              ("<br>", true, false); ("c", false, true); ("<br/>", false, false);
              ("d", false, true)]%string).
Proof. vm_compute. reflexivity. Qed.
Example space_split_1 : space_split (lit "a a a a") false
  = Ok (toks [("a", false, true); ("a", true, true); ("a", true, true);
              ("a", true, true)]%string).
Proof. vm_compute. reflexivity. Qed.

(** The translation tables: babel/axl_babel_iso8859*.c, functions
    axl_babel_build_iso8859*_table (whole files); an entry is the pair of the fields
    [size] and [buffer] (the assigned elements of the array of 6, babel/axl_babel.h:57-67).
    The file lists the assignments of those functions in order. *)
From Coq Require Import NArith.
From Verif Require Import Prelude.
Open Scope N_scope.

(** babel/axl_babel_iso88591.c, axl_babel_build_iso88591_table *)
Definition table_1 : list (nat * list N) :=
  [
   (1%nat, [0]); (1%nat, [1]); (1%nat, [2]); (1%nat, [3]); (1%nat, [4]); (1%nat, [5]); (1%nat, [6]); (1%nat, [7]);
   (1%nat, [8]); (1%nat, [9]); (1%nat, [10]); (1%nat, [11]); (1%nat, [12]); (1%nat, [13]); (1%nat, [14]); (1%nat, [15]);
   (1%nat, [16]); (1%nat, [17]); (1%nat, [18]); (1%nat, [19]); (1%nat, [20]); (1%nat, [21]); (1%nat, [22]); (1%nat, [23]);
   (1%nat, [24]); (1%nat, [25]); (1%nat, [26]); (1%nat, [27]); (1%nat, [28]); (1%nat, [29]); (1%nat, [30]); (1%nat, [31]);
   (1%nat, [32]); (1%nat, [33]); (1%nat, [34]); (1%nat, [35]); (1%nat, [36]); (1%nat, [37]); (1%nat, [38]); (1%nat, [39]);
   (1%nat, [40]); (1%nat, [41]); (1%nat, [42]); (1%nat, [43]); (1%nat, [44]); (1%nat, [45]); (1%nat, [46]); (1%nat, [47]);
   (1%nat, [48]); (1%nat, [49]); (1%nat, [50]); (1%nat, [51]); (1%nat, [52]); (1%nat, [53]); (1%nat, [54]); (1%nat, [55]);
   (1%nat, [56]); (1%nat, [57]); (1%nat, [58]); (1%nat, [59]); (1%nat, [60]); (1%nat, [61]); (1%nat, [62]); (1%nat, [63]);
   (1%nat, [64]); (1%nat, [65]); (1%nat, [66]); (1%nat, [67]); (1%nat, [68]); (1%nat, [69]); (1%nat, [70]); (1%nat, [71]);
   (1%nat, [72]); (1%nat, [73]); (1%nat, [74]); (1%nat, [75]); (1%nat, [76]); (1%nat, [77]); (1%nat, [78]); (1%nat, [79]);
   (1%nat, [80]); (1%nat, [81]); (1%nat, [82]); (1%nat, [83]); (1%nat, [84]); (1%nat, [85]); (1%nat, [86]); (1%nat, [87]);
   (1%nat, [88]); (1%nat, [89]); (1%nat, [90]); (1%nat, [91]); (1%nat, [92]); (1%nat, [93]); (1%nat, [94]); (1%nat, [95]);
   (1%nat, [96]); (1%nat, [97]); (1%nat, [98]); (1%nat, [99]); (1%nat, [100]); (1%nat, [101]); (1%nat, [102]); (1%nat, [103]);
   (1%nat, [104]); (1%nat, [105]); (1%nat, [106]); (1%nat, [107]); (1%nat, [108]); (1%nat, [109]); (1%nat, [110]); (1%nat, [111]);
   (1%nat, [112]); (1%nat, [113]); (1%nat, [114]); (1%nat, [115]); (1%nat, [116]); (1%nat, [117]); (1%nat, [118]); (1%nat, [119]);
   (1%nat, [120]); (1%nat, [121]); (1%nat, [122]); (1%nat, [123]); (1%nat, [124]); (1%nat, [125]); (1%nat, [126]); (1%nat, [127]);
   (2%nat, [194; 128]); (2%nat, [194; 129]); (2%nat, [194; 130]); (2%nat, [194; 131]); (2%nat, [194; 132]); (2%nat, [194; 133]); (2%nat, [194; 134]); (2%nat, [194; 135]);
   (2%nat, [194; 136]); (2%nat, [194; 137]); (2%nat, [194; 138]); (2%nat, [194; 139]); (2%nat, [194; 140]); (2%nat, [194; 141]); (2%nat, [194; 142]); (2%nat, [194; 143]);
   (2%nat, [194; 144]); (2%nat, [194; 145]); (2%nat, [194; 146]); (2%nat, [194; 147]); (2%nat, [194; 148]); (2%nat, [194; 149]); (2%nat, [194; 150]); (2%nat, [194; 151]);
   (2%nat, [194; 152]); (2%nat, [194; 153]); (2%nat, [194; 154]); (2%nat, [194; 155]); (2%nat, [194; 156]); (2%nat, [194; 157]); (2%nat, [194; 158]); (2%nat, [194; 159]);
   (2%nat, [194; 160]); (2%nat, [194; 161]); (2%nat, [194; 162]); (2%nat, [194; 163]); (2%nat, [194; 164]); (2%nat, [194; 165]); (2%nat, [194; 166]); (2%nat, [194; 167]);
   (2%nat, [194; 168]); (2%nat, [194; 169]); (2%nat, [194; 170]); (2%nat, [194; 171]); (2%nat, [194; 172]); (2%nat, [194; 173]); (2%nat, [194; 174]); (2%nat, [194; 175]);
   (2%nat, [194; 176]); (2%nat, [194; 177]); (2%nat, [194; 178]); (2%nat, [194; 179]); (2%nat, [194; 180]); (2%nat, [194; 181]); (2%nat, [194; 182]); (2%nat, [194; 183]);
   (2%nat, [194; 184]); (2%nat, [194; 185]); (2%nat, [194; 186]); (2%nat, [194; 187]); (2%nat, [194; 188]); (2%nat, [194; 189]); (2%nat, [194; 190]); (2%nat, [194; 191]);
   (2%nat, [195; 128]); (2%nat, [195; 129]); (2%nat, [195; 130]); (2%nat, [195; 131]); (2%nat, [195; 132]); (2%nat, [195; 133]); (2%nat, [195; 134]); (2%nat, [195; 135]);
   (2%nat, [195; 136]); (2%nat, [195; 137]); (2%nat, [195; 138]); (2%nat, [195; 139]); (2%nat, [195; 140]); (2%nat, [195; 141]); (2%nat, [195; 142]); (2%nat, [195; 143]);
   (2%nat, [195; 144]); (2%nat, [195; 145]); (2%nat, [195; 146]); (2%nat, [195; 147]); (2%nat, [195; 148]); (2%nat, [195; 149]); (2%nat, [195; 150]); (2%nat, [195; 151]);
   (2%nat, [195; 152]); (2%nat, [195; 153]); (2%nat, [195; 154]); (2%nat, [195; 155]); (2%nat, [195; 156]); (2%nat, [195; 157]); (2%nat, [195; 158]); (2%nat, [195; 159]);
   (2%nat, [195; 160]); (2%nat, [195; 161]); (2%nat, [195; 162]); (2%nat, [195; 163]); (2%nat, [195; 164]); (2%nat, [195; 165]); (2%nat, [195; 166]); (2%nat, [195; 167]);
   (2%nat, [195; 168]); (2%nat, [195; 169]); (2%nat, [195; 170]); (2%nat, [195; 171]); (2%nat, [195; 172]); (2%nat, [195; 173]); (2%nat, [195; 174]); (2%nat, [195; 175]);
   (2%nat, [195; 176]); (2%nat, [195; 177]); (2%nat, [195; 178]); (2%nat, [195; 179]); (2%nat, [195; 180]); (2%nat, [195; 181]); (2%nat, [195; 182]); (2%nat, [195; 183]);
   (2%nat, [195; 184]); (2%nat, [195; 185]); (2%nat, [195; 186]); (2%nat, [195; 187]); (2%nat, [195; 188]); (2%nat, [195; 189]); (2%nat, [195; 190]); (2%nat, [195; 191])
  ].

(** babel/axl_babel_iso88592.c, axl_babel_build_iso88592_table *)
Definition table_2 : list (nat * list N) :=
  [
   (1%nat, [0]); (1%nat, [1]); (1%nat, [2]); (1%nat, [3]); (1%nat, [4]); (1%nat, [5]); (1%nat, [6]); (1%nat, [7]);
   (1%nat, [8]); (1%nat, [9]); (1%nat, [10]); (1%nat, [11]); (1%nat, [12]); (1%nat, [13]); (1%nat, [14]); (1%nat, [15]);
   (1%nat, [16]); (1%nat, [17]); (1%nat, [18]); (1%nat, [19]); (1%nat, [20]); (1%nat, [21]); (1%nat, [22]); (1%nat, [23]);
   (1%nat, [24]); (1%nat, [25]); (1%nat, [26]); (1%nat, [27]); (1%nat, [28]); (1%nat, [29]); (1%nat, [30]); (1%nat, [31]);
   (1%nat, [32]); (1%nat, [33]); (1%nat, [34]); (1%nat, [35]); (1%nat, [36]); (1%nat, [37]); (1%nat, [38]); (1%nat, [39]);
   (1%nat, [40]); (1%nat, [41]); (1%nat, [42]); (1%nat, [43]); (1%nat, [44]); (1%nat, [45]); (1%nat, [46]); (1%nat, [47]);
   (1%nat, [48]); (1%nat, [49]); (1%nat, [50]); (1%nat, [51]); (1%nat, [52]); (1%nat, [53]); (1%nat, [54]); (1%nat, [55]);
   (1%nat, [56]); (1%nat, [57]); (1%nat, [58]); (1%nat, [59]); (1%nat, [60]); (1%nat, [61]); (1%nat, [62]); (1%nat, [63]);
   (1%nat, [64]); (1%nat, [65]); (1%nat, [66]); (1%nat, [67]); (1%nat, [68]); (1%nat, [69]); (1%nat, [70]); (1%nat, [71]);
   (1%nat, [72]); (1%nat, [73]); (1%nat, [74]); (1%nat, [75]); (1%nat, [76]); (1%nat, [77]); (1%nat, [78]); (1%nat, [79]);
   (1%nat, [80]); (1%nat, [81]); (1%nat, [82]); (1%nat, [83]); (1%nat, [84]); (1%nat, [85]); (1%nat, [86]); (1%nat, [87]);
   (1%nat, [88]); (1%nat, [89]); (1%nat, [90]); (1%nat, [91]); (1%nat, [92]); (1%nat, [93]); (1%nat, [94]); (1%nat, [95]);
   (1%nat, [96]); (1%nat, [97]); (1%nat, [98]); (1%nat, [99]); (1%nat, [100]); (1%nat, [101]); (1%nat, [102]); (1%nat, [103]);
   (1%nat, [104]); (1%nat, [105]); (1%nat, [106]); (1%nat, [107]); (1%nat, [108]); (1%nat, [109]); (1%nat, [110]); (1%nat, [111]);
   (1%nat, [112]); (1%nat, [113]); (1%nat, [114]); (1%nat, [115]); (1%nat, [116]); (1%nat, [117]); (1%nat, [118]); (1%nat, [119]);
   (1%nat, [120]); (1%nat, [121]); (1%nat, [122]); (1%nat, [123]); (1%nat, [124]); (1%nat, [125]); (1%nat, [126]); (1%nat, [127]);
   (2%nat, [194; 128]); (2%nat, [194; 129]); (2%nat, [194; 130]); (2%nat, [194; 131]); (2%nat, [194; 132]); (2%nat, [194; 133]); (2%nat, [194; 134]); (2%nat, [194; 135]);
   (2%nat, [194; 136]); (2%nat, [194; 137]); (2%nat, [194; 138]); (2%nat, [194; 139]); (2%nat, [194; 140]); (2%nat, [194; 141]); (2%nat, [194; 142]); (2%nat, [194; 143]);
   (2%nat, [194; 144]); (2%nat, [194; 145]); (2%nat, [194; 146]); (2%nat, [194; 147]); (2%nat, [194; 148]); (2%nat, [194; 149]); (2%nat, [194; 150]); (2%nat, [194; 151]);
   (2%nat, [194; 152]); (2%nat, [194; 153]); (2%nat, [194; 154]); (2%nat, [194; 155]); (2%nat, [194; 156]); (2%nat, [194; 157]); (2%nat, [194; 158]); (2%nat, [194; 159]);
   (2%nat, [194; 160]); (2%nat, [196; 132]); (2%nat, [203; 152]); (2%nat, [197; 129]); (2%nat, [194; 164]); (2%nat, [196; 189]); (2%nat, [197; 154]); (2%nat, [194; 167]);
   (2%nat, [194; 168]); (2%nat, [197; 160]); (2%nat, [197; 158]); (2%nat, [197; 164]); (2%nat, [197; 185]); (2%nat, [194; 173]); (2%nat, [197; 189]); (2%nat, [197; 187]);
   (2%nat, [194; 176]); (2%nat, [196; 133]); (2%nat, [203; 155]); (2%nat, [197; 130]); (2%nat, [194; 180]); (2%nat, [196; 190]); (2%nat, [197; 155]); (2%nat, [203; 135]);
   (2%nat, [194; 184]); (2%nat, [197; 161]); (2%nat, [197; 159]); (2%nat, [197; 165]); (2%nat, [197; 186]); (2%nat, [203; 157]); (2%nat, [197; 190]); (2%nat, [197; 188]);
   (2%nat, [197; 148]); (2%nat, [195; 129]); (2%nat, [195; 130]); (2%nat, [196; 130]); (2%nat, [195; 132]); (2%nat, [196; 185]); (2%nat, [196; 134]); (2%nat, [195; 135]);
   (2%nat, [196; 140]); (2%nat, [195; 137]); (2%nat, [196; 152]); (2%nat, [195; 139]); (2%nat, [196; 154]); (2%nat, [195; 141]); (2%nat, [195; 142]); (2%nat, [196; 142]);
   (2%nat, [196; 144]); (2%nat, [197; 131]); (2%nat, [197; 135]); (2%nat, [195; 147]); (2%nat, [195; 148]); (2%nat, [197; 144]); (2%nat, [195; 150]); (2%nat, [195; 151]);
   (2%nat, [197; 152]); (2%nat, [197; 174]); (2%nat, [195; 154]); (2%nat, [197; 176]); (2%nat, [195; 156]); (2%nat, [195; 157]); (2%nat, [197; 162]); (2%nat, [195; 159]);
   (2%nat, [197; 149]); (2%nat, [195; 161]); (2%nat, [195; 162]); (2%nat, [196; 131]); (2%nat, [195; 164]); (2%nat, [196; 186]); (2%nat, [196; 135]); (2%nat, [195; 167]);
   (2%nat, [196; 141]); (2%nat, [195; 169]); (2%nat, [196; 153]); (2%nat, [195; 171]); (2%nat, [196; 155]); (2%nat, [195; 173]); (2%nat, [195; 174]); (2%nat, [196; 143]);
   (2%nat, [196; 145]); (2%nat, [197; 132]); (2%nat, [197; 136]); (2%nat, [195; 179]); (2%nat, [195; 180]); (2%nat, [197; 145]); (2%nat, [195; 182]); (2%nat, [195; 183]);
   (2%nat, [197; 153]); (2%nat, [197; 175]); (2%nat, [195; 186]); (2%nat, [197; 177]); (2%nat, [195; 188]); (2%nat, [195; 189]); (2%nat, [197; 163]); (2%nat, [203; 153])
  ].

(** babel/axl_babel_iso88593.c, axl_babel_build_iso88593_table *)
Definition table_3 : list (nat * list N) :=
  [
   (1%nat, [0]); (1%nat, [1]); (1%nat, [2]); (1%nat, [3]); (1%nat, [4]); (1%nat, [5]); (1%nat, [6]); (1%nat, [7]);
   (1%nat, [8]); (1%nat, [9]); (1%nat, [10]); (1%nat, [11]); (1%nat, [12]); (1%nat, [13]); (1%nat, [14]); (1%nat, [15]);
   (1%nat, [16]); (1%nat, [17]); (1%nat, [18]); (1%nat, [19]); (1%nat, [20]); (1%nat, [21]); (1%nat, [22]); (1%nat, [23]);
   (1%nat, [24]); (1%nat, [25]); (1%nat, [26]); (1%nat, [27]); (1%nat, [28]); (1%nat, [29]); (1%nat, [30]); (1%nat, [31]);
   (1%nat, [32]); (1%nat, [33]); (1%nat, [34]); (1%nat, [35]); (1%nat, [36]); (1%nat, [37]); (1%nat, [38]); (1%nat, [39]);
   (1%nat, [40]); (1%nat, [41]); (1%nat, [42]); (1%nat, [43]); (1%nat, [44]); (1%nat, [45]); (1%nat, [46]); (1%nat, [47]);
   (1%nat, [48]); (1%nat, [49]); (1%nat, [50]); (1%nat, [51]); (1%nat, [52]); (1%nat, [53]); (1%nat, [54]); (1%nat, [55]);
   (1%nat, [56]); (1%nat, [57]); (1%nat, [58]); (1%nat, [59]); (1%nat, [60]); (1%nat, [61]); (1%nat, [62]); (1%nat, [63]);
   (1%nat, [64]); (1%nat, [65]); (1%nat, [66]); (1%nat, [67]); (1%nat, [68]); (1%nat, [69]); (1%nat, [70]); (1%nat, [71]);
   (1%nat, [72]); (1%nat, [73]); (1%nat, [74]); (1%nat, [75]); (1%nat, [76]); (1%nat, [77]); (1%nat, [78]); (1%nat, [79]);
   (1%nat, [80]); (1%nat, [81]); (1%nat, [82]); (1%nat, [83]); (1%nat, [84]); (1%nat, [85]); (1%nat, [86]); (1%nat, [87]);
   (1%nat, [88]); (1%nat, [89]); (1%nat, [90]); (1%nat, [91]); (1%nat, [92]); (1%nat, [93]); (1%nat, [94]); (1%nat, [95]);
   (1%nat, [96]); (1%nat, [97]); (1%nat, [98]); (1%nat, [99]); (1%nat, [100]); (1%nat, [101]); (1%nat, [102]); (1%nat, [103]);
   (1%nat, [104]); (1%nat, [105]); (1%nat, [106]); (1%nat, [107]); (1%nat, [108]); (1%nat, [109]); (1%nat, [110]); (1%nat, [111]);
   (1%nat, [112]); (1%nat, [113]); (1%nat, [114]); (1%nat, [115]); (1%nat, [116]); (1%nat, [117]); (1%nat, [118]); (1%nat, [119]);
   (1%nat, [120]); (1%nat, [121]); (1%nat, [122]); (1%nat, [123]); (1%nat, [124]); (1%nat, [125]); (1%nat, [126]); (1%nat, [127]);
   (2%nat, [194; 128]); (2%nat, [194; 129]); (2%nat, [194; 130]); (2%nat, [194; 131]); (2%nat, [194; 132]); (2%nat, [194; 133]); (2%nat, [194; 134]); (2%nat, [194; 135]);
   (2%nat, [194; 136]); (2%nat, [194; 137]); (2%nat, [194; 138]); (2%nat, [194; 139]); (2%nat, [194; 140]); (2%nat, [194; 141]); (2%nat, [194; 142]); (2%nat, [194; 143]);
   (2%nat, [194; 144]); (2%nat, [194; 145]); (2%nat, [194; 146]); (2%nat, [194; 147]); (2%nat, [194; 148]); (2%nat, [194; 149]); (2%nat, [194; 150]); (2%nat, [194; 151]);
   (2%nat, [194; 152]); (2%nat, [194; 153]); (2%nat, [194; 154]); (2%nat, [194; 155]); (2%nat, [194; 156]); (2%nat, [194; 157]); (2%nat, [194; 158]); (2%nat, [194; 159]);
   (2%nat, [194; 160]); (2%nat, [196; 166]); (2%nat, [203; 152]); (2%nat, [194; 163]); (2%nat, [194; 164]); (1%nat, [0]); (2%nat, [196; 164]); (2%nat, [194; 167]);
   (2%nat, [194; 168]); (2%nat, [196; 176]); (2%nat, [197; 158]); (2%nat, [196; 158]); (2%nat, [196; 180]); (2%nat, [194; 173]); (1%nat, [0]); (2%nat, [197; 187]);
   (2%nat, [194; 176]); (2%nat, [196; 167]); (2%nat, [194; 178]); (2%nat, [194; 179]); (2%nat, [194; 180]); (2%nat, [194; 181]); (2%nat, [196; 165]); (2%nat, [194; 183]);
   (2%nat, [194; 184]); (2%nat, [196; 177]); (2%nat, [197; 159]); (2%nat, [196; 159]); (2%nat, [196; 181]); (2%nat, [194; 189]); (1%nat, [0]); (2%nat, [197; 188]);
   (2%nat, [195; 128]); (2%nat, [195; 129]); (2%nat, [195; 130]); (1%nat, [0]); (2%nat, [195; 132]); (2%nat, [196; 138]); (2%nat, [196; 136]); (2%nat, [195; 135]);
   (2%nat, [195; 136]); (2%nat, [195; 137]); (2%nat, [195; 138]); (2%nat, [195; 139]); (2%nat, [195; 140]); (2%nat, [195; 141]); (2%nat, [195; 142]); (2%nat, [195; 143]);
   (1%nat, [0]); (2%nat, [195; 145]); (2%nat, [195; 146]); (2%nat, [195; 147]); (2%nat, [195; 148]); (2%nat, [196; 160]); (2%nat, [195; 150]); (2%nat, [195; 151]);
   (2%nat, [196; 156]); (2%nat, [195; 153]); (2%nat, [195; 154]); (2%nat, [195; 155]); (2%nat, [195; 156]); (2%nat, [197; 172]); (2%nat, [197; 156]); (2%nat, [195; 159]);
   (2%nat, [195; 160]); (2%nat, [195; 161]); (2%nat, [195; 162]); (1%nat, [0]); (2%nat, [195; 164]); (2%nat, [196; 139]); (2%nat, [196; 137]); (2%nat, [195; 167]);
   (2%nat, [195; 168]); (2%nat, [195; 169]); (2%nat, [195; 170]); (2%nat, [195; 171]); (2%nat, [195; 172]); (2%nat, [195; 173]); (2%nat, [195; 174]); (2%nat, [195; 175]);
   (1%nat, [0]); (2%nat, [195; 177]); (2%nat, [195; 178]); (2%nat, [195; 179]); (2%nat, [195; 180]); (2%nat, [196; 161]); (2%nat, [195; 182]); (2%nat, [195; 183]);
   (2%nat, [196; 157]); (2%nat, [195; 185]); (2%nat, [195; 186]); (2%nat, [195; 187]); (2%nat, [195; 188]); (2%nat, [197; 173]); (2%nat, [197; 157]); (2%nat, [203; 153])
  ].

(** babel/axl_babel_iso88594.c, axl_babel_build_iso88594_table *)
Definition table_4 : list (nat * list N) :=
  [
   (1%nat, [0]); (1%nat, [1]); (1%nat, [2]); (1%nat, [3]); (1%nat, [4]); (1%nat, [5]); (1%nat, [6]); (1%nat, [7]);
   (1%nat, [8]); (1%nat, [9]); (1%nat, [10]); (1%nat, [11]); (1%nat, [12]); (1%nat, [13]); (1%nat, [14]); (1%nat, [15]);
   (1%nat, [16]); (1%nat, [17]); (1%nat, [18]); (1%nat, [19]); (1%nat, [20]); (1%nat, [21]); (1%nat, [22]); (1%nat, [23]);
   (1%nat, [24]); (1%nat, [25]); (1%nat, [26]); (1%nat, [27]); (1%nat, [28]); (1%nat, [29]); (1%nat, [30]); (1%nat, [31]);
   (1%nat, [32]); (1%nat, [33]); (1%nat, [34]); (1%nat, [35]); (1%nat, [36]); (1%nat, [37]); (1%nat, [38]); (1%nat, [39]);
   (1%nat, [40]); (1%nat, [41]); (1%nat, [42]); (1%nat, [43]); (1%nat, [44]); (1%nat, [45]); (1%nat, [46]); (1%nat, [47]);
   (1%nat, [48]); (1%nat, [49]); (1%nat, [50]); (1%nat, [51]); (1%nat, [52]); (1%nat, [53]); (1%nat, [54]); (1%nat, [55]);
   (1%nat, [56]); (1%nat, [57]); (1%nat, [58]); (1%nat, [59]); (1%nat, [60]); (1%nat, [61]); (1%nat, [62]); (1%nat, [63]);
   (1%nat, [64]); (1%nat, [65]); (1%nat, [66]); (1%nat, [67]); (1%nat, [68]); (1%nat, [69]); (1%nat, [70]); (1%nat, [71]);
   (1%nat, [72]); (1%nat, [73]); (1%nat, [74]); (1%nat, [75]); (1%nat, [76]); (1%nat, [77]); (1%nat, [78]); (1%nat, [79]);
   (1%nat, [80]); (1%nat, [81]); (1%nat, [82]); (1%nat, [83]); (1%nat, [84]); (1%nat, [85]); (1%nat, [86]); (1%nat, [87]);
   (1%nat, [88]); (1%nat, [89]); (1%nat, [90]); (1%nat, [91]); (1%nat, [92]); (1%nat, [93]); (1%nat, [94]); (1%nat, [95]);
   (1%nat, [96]); (1%nat, [97]); (1%nat, [98]); (1%nat, [99]); (1%nat, [100]); (1%nat, [101]); (1%nat, [102]); (1%nat, [103]);
   (1%nat, [104]); (1%nat, [105]); (1%nat, [106]); (1%nat, [107]); (1%nat, [108]); (1%nat, [109]); (1%nat, [110]); (1%nat, [111]);
   (1%nat, [112]); (1%nat, [113]); (1%nat, [114]); (1%nat, [115]); (1%nat, [116]); (1%nat, [117]); (1%nat, [118]); (1%nat, [119]);
   (1%nat, [120]); (1%nat, [121]); (1%nat, [122]); (1%nat, [123]); (1%nat, [124]); (1%nat, [125]); (1%nat, [126]); (1%nat, [127]);
   (2%nat, [194; 128]); (2%nat, [194; 129]); (2%nat, [194; 130]); (2%nat, [194; 131]); (2%nat, [194; 132]); (2%nat, [194; 133]); (2%nat, [194; 134]); (2%nat, [194; 135]);
   (2%nat, [194; 136]); (2%nat, [194; 137]); (2%nat, [194; 138]); (2%nat, [194; 139]); (2%nat, [194; 140]); (2%nat, [194; 141]); (2%nat, [194; 142]); (2%nat, [194; 143]);
   (2%nat, [194; 144]); (2%nat, [194; 145]); (2%nat, [194; 146]); (2%nat, [194; 147]); (2%nat, [194; 148]); (2%nat, [194; 149]); (2%nat, [194; 150]); (2%nat, [194; 151]);
   (2%nat, [194; 152]); (2%nat, [194; 153]); (2%nat, [194; 154]); (2%nat, [194; 155]); (2%nat, [194; 156]); (2%nat, [194; 157]); (2%nat, [194; 158]); (2%nat, [194; 159]);
   (2%nat, [194; 160]); (2%nat, [196; 132]); (2%nat, [196; 184]); (2%nat, [197; 150]); (2%nat, [194; 164]); (2%nat, [196; 168]); (2%nat, [196; 187]); (2%nat, [194; 167]);
   (2%nat, [194; 168]); (2%nat, [197; 160]); (2%nat, [196; 146]); (2%nat, [196; 162]); (2%nat, [197; 166]); (2%nat, [194; 173]); (2%nat, [197; 189]); (2%nat, [194; 175]);
   (2%nat, [194; 176]); (2%nat, [196; 133]); (2%nat, [203; 155]); (2%nat, [197; 151]); (2%nat, [194; 180]); (2%nat, [196; 169]); (2%nat, [196; 188]); (2%nat, [203; 135]);
   (2%nat, [194; 184]); (2%nat, [197; 161]); (2%nat, [196; 147]); (2%nat, [196; 163]); (2%nat, [197; 167]); (2%nat, [197; 138]); (2%nat, [197; 190]); (2%nat, [197; 139]);
   (2%nat, [196; 128]); (2%nat, [195; 129]); (2%nat, [195; 130]); (2%nat, [195; 131]); (2%nat, [195; 132]); (2%nat, [195; 133]); (2%nat, [195; 134]); (2%nat, [196; 174]);
   (2%nat, [196; 140]); (2%nat, [195; 137]); (2%nat, [196; 152]); (2%nat, [195; 139]); (2%nat, [196; 150]); (2%nat, [195; 141]); (2%nat, [195; 142]); (2%nat, [196; 170]);
   (2%nat, [196; 144]); (2%nat, [197; 133]); (2%nat, [197; 140]); (2%nat, [196; 182]); (2%nat, [195; 148]); (2%nat, [195; 149]); (2%nat, [195; 150]); (2%nat, [195; 151]);
   (2%nat, [195; 152]); (2%nat, [197; 178]); (2%nat, [195; 154]); (2%nat, [195; 155]); (2%nat, [195; 156]); (2%nat, [197; 168]); (2%nat, [197; 170]); (2%nat, [195; 159]);
   (2%nat, [196; 129]); (2%nat, [195; 161]); (2%nat, [195; 162]); (2%nat, [195; 163]); (2%nat, [195; 164]); (2%nat, [195; 165]); (2%nat, [195; 166]); (2%nat, [196; 175]);
   (2%nat, [196; 141]); (2%nat, [195; 169]); (2%nat, [196; 153]); (2%nat, [195; 171]); (2%nat, [196; 151]); (2%nat, [195; 173]); (2%nat, [195; 174]); (2%nat, [196; 171]);
   (2%nat, [196; 145]); (2%nat, [197; 134]); (2%nat, [197; 141]); (2%nat, [196; 183]); (2%nat, [195; 180]); (2%nat, [195; 181]); (2%nat, [195; 182]); (2%nat, [195; 183]);
   (2%nat, [195; 184]); (2%nat, [197; 179]); (2%nat, [195; 186]); (2%nat, [195; 187]); (2%nat, [195; 188]); (2%nat, [197; 169]); (2%nat, [197; 171]); (2%nat, [203; 153])
  ].

(** babel/axl_babel_iso88595.c, axl_babel_build_iso88595_table *)
Definition table_5 : list (nat * list N) :=
  [
   (1%nat, [0]); (1%nat, [1]); (1%nat, [2]); (1%nat, [3]); (1%nat, [4]); (1%nat, [5]); (1%nat, [6]); (1%nat, [7]);
   (1%nat, [8]); (1%nat, [9]); (1%nat, [10]); (1%nat, [11]); (1%nat, [12]); (1%nat, [13]); (1%nat, [14]); (1%nat, [15]);
   (1%nat, [16]); (1%nat, [17]); (1%nat, [18]); (1%nat, [19]); (1%nat, [20]); (1%nat, [21]); (1%nat, [22]); (1%nat, [23]);
   (1%nat, [24]); (1%nat, [25]); (1%nat, [26]); (1%nat, [27]); (1%nat, [28]); (1%nat, [29]); (1%nat, [30]); (1%nat, [31]);
   (1%nat, [32]); (1%nat, [33]); (1%nat, [34]); (1%nat, [35]); (1%nat, [36]); (1%nat, [37]); (1%nat, [38]); (1%nat, [39]);
   (1%nat, [40]); (1%nat, [41]); (1%nat, [42]); (1%nat, [43]); (1%nat, [44]); (1%nat, [45]); (1%nat, [46]); (1%nat, [47]);
   (1%nat, [48]); (1%nat, [49]); (1%nat, [50]); (1%nat, [51]); (1%nat, [52]); (1%nat, [53]); (1%nat, [54]); (1%nat, [55]);
   (1%nat, [56]); (1%nat, [57]); (1%nat, [58]); (1%nat, [59]); (1%nat, [60]); (1%nat, [61]); (1%nat, [62]); (1%nat, [63]);
   (1%nat, [64]); (1%nat, [65]); (1%nat, [66]); (1%nat, [67]); (1%nat, [68]); (1%nat, [69]); (1%nat, [70]); (1%nat, [71]);
   (1%nat, [72]); (1%nat, [73]); (1%nat, [74]); (1%nat, [75]); (1%nat, [76]); (1%nat, [77]); (1%nat, [78]); (1%nat, [79]);
   (1%nat, [80]); (1%nat, [81]); (1%nat, [82]); (1%nat, [83]); (1%nat, [84]); (1%nat, [85]); (1%nat, [86]); (1%nat, [87]);
   (1%nat, [88]); (1%nat, [89]); (1%nat, [90]); (1%nat, [91]); (1%nat, [92]); (1%nat, [93]); (1%nat, [94]); (1%nat, [95]);
   (1%nat, [96]); (1%nat, [97]); (1%nat, [98]); (1%nat, [99]); (1%nat, [100]); (1%nat, [101]); (1%nat, [102]); (1%nat, [103]);
   (1%nat, [104]); (1%nat, [105]); (1%nat, [106]); (1%nat, [107]); (1%nat, [108]); (1%nat, [109]); (1%nat, [110]); (1%nat, [111]);
   (1%nat, [112]); (1%nat, [113]); (1%nat, [114]); (1%nat, [115]); (1%nat, [116]); (1%nat, [117]); (1%nat, [118]); (1%nat, [119]);
   (1%nat, [120]); (1%nat, [121]); (1%nat, [122]); (1%nat, [123]); (1%nat, [124]); (1%nat, [125]); (1%nat, [126]); (1%nat, [127]);
   (2%nat, [194; 128]); (2%nat, [194; 129]); (2%nat, [194; 130]); (2%nat, [194; 131]); (2%nat, [194; 132]); (2%nat, [194; 133]); (2%nat, [194; 134]); (2%nat, [194; 135]);
   (2%nat, [194; 136]); (2%nat, [194; 137]); (2%nat, [194; 138]); (2%nat, [194; 139]); (2%nat, [194; 140]); (2%nat, [194; 141]); (2%nat, [194; 142]); (2%nat, [194; 143]);
   (2%nat, [194; 144]); (2%nat, [194; 145]); (2%nat, [194; 146]); (2%nat, [194; 147]); (2%nat, [194; 148]); (2%nat, [194; 149]); (2%nat, [194; 150]); (2%nat, [194; 151]);
   (2%nat, [194; 152]); (2%nat, [194; 153]); (2%nat, [194; 154]); (2%nat, [194; 155]); (2%nat, [194; 156]); (2%nat, [194; 157]); (2%nat, [194; 158]); (2%nat, [194; 159]);
   (2%nat, [194; 160]); (2%nat, [208; 129]); (2%nat, [208; 130]); (2%nat, [208; 131]); (2%nat, [208; 132]); (2%nat, [208; 133]); (2%nat, [208; 134]); (2%nat, [208; 135]);
   (2%nat, [208; 136]); (2%nat, [208; 137]); (2%nat, [208; 138]); (2%nat, [208; 139]); (2%nat, [208; 140]); (2%nat, [194; 173]); (2%nat, [208; 142]); (2%nat, [208; 143]);
   (2%nat, [208; 144]); (2%nat, [208; 145]); (2%nat, [208; 146]); (2%nat, [208; 147]); (2%nat, [208; 148]); (2%nat, [208; 149]); (2%nat, [208; 150]); (2%nat, [208; 151]);
   (2%nat, [208; 152]); (2%nat, [208; 153]); (2%nat, [208; 154]); (2%nat, [208; 155]); (2%nat, [208; 156]); (2%nat, [208; 157]); (2%nat, [208; 158]); (2%nat, [208; 159]);
   (2%nat, [208; 160]); (2%nat, [208; 161]); (2%nat, [208; 162]); (2%nat, [208; 163]); (2%nat, [208; 164]); (2%nat, [208; 165]); (2%nat, [208; 166]); (2%nat, [208; 167]);
   (2%nat, [208; 168]); (2%nat, [208; 169]); (2%nat, [208; 170]); (2%nat, [208; 171]); (2%nat, [208; 172]); (2%nat, [208; 173]); (2%nat, [208; 174]); (2%nat, [208; 175]);
   (2%nat, [208; 176]); (2%nat, [208; 177]); (2%nat, [208; 178]); (2%nat, [208; 179]); (2%nat, [208; 180]); (2%nat, [208; 181]); (2%nat, [208; 182]); (2%nat, [208; 183]);
   (2%nat, [208; 184]); (2%nat, [208; 185]); (2%nat, [208; 186]); (2%nat, [208; 187]); (2%nat, [208; 188]); (2%nat, [208; 189]); (2%nat, [208; 190]); (2%nat, [208; 191]);
   (2%nat, [209; 128]); (2%nat, [209; 129]); (2%nat, [209; 130]); (2%nat, [209; 131]); (2%nat, [209; 132]); (2%nat, [209; 133]); (2%nat, [209; 134]); (2%nat, [209; 135]);
   (2%nat, [209; 136]); (2%nat, [209; 137]); (2%nat, [209; 138]); (2%nat, [209; 139]); (2%nat, [209; 140]); (2%nat, [209; 141]); (2%nat, [209; 142]); (2%nat, [209; 143]);
   (3%nat, [226; 132; 150]); (2%nat, [209; 145]); (2%nat, [209; 146]); (2%nat, [209; 147]); (2%nat, [209; 148]); (2%nat, [209; 149]); (2%nat, [209; 150]); (2%nat, [209; 151]);
   (2%nat, [209; 152]); (2%nat, [209; 153]); (2%nat, [209; 154]); (2%nat, [209; 155]); (2%nat, [209; 156]); (2%nat, [194; 167]); (2%nat, [209; 158]); (2%nat, [209; 159])
  ].

(** babel/axl_babel_iso88596.c, axl_babel_build_iso88596_table *)
Definition table_6 : list (nat * list N) :=
  [
   (1%nat, [0]); (1%nat, [1]); (1%nat, [2]); (1%nat, [3]); (1%nat, [4]); (1%nat, [5]); (1%nat, [6]); (1%nat, [7]);
   (1%nat, [8]); (1%nat, [9]); (1%nat, [10]); (1%nat, [11]); (1%nat, [12]); (1%nat, [13]); (1%nat, [14]); (1%nat, [15]);
   (1%nat, [16]); (1%nat, [17]); (1%nat, [18]); (1%nat, [19]); (1%nat, [20]); (1%nat, [21]); (1%nat, [22]); (1%nat, [23]);
   (1%nat, [24]); (1%nat, [25]); (1%nat, [26]); (1%nat, [27]); (1%nat, [28]); (1%nat, [29]); (1%nat, [30]); (1%nat, [31]);
   (1%nat, [32]); (1%nat, [33]); (1%nat, [34]); (1%nat, [35]); (1%nat, [36]); (1%nat, [37]); (1%nat, [38]); (1%nat, [39]);
   (1%nat, [40]); (1%nat, [41]); (1%nat, [42]); (1%nat, [43]); (1%nat, [44]); (1%nat, [45]); (1%nat, [46]); (1%nat, [47]);
   (1%nat, [48]); (1%nat, [49]); (1%nat, [50]); (1%nat, [51]); (1%nat, [52]); (1%nat, [53]); (1%nat, [54]); (1%nat, [55]);
   (1%nat, [56]); (1%nat, [57]); (1%nat, [58]); (1%nat, [59]); (1%nat, [60]); (1%nat, [61]); (1%nat, [62]); (1%nat, [63]);
   (1%nat, [64]); (1%nat, [65]); (1%nat, [66]); (1%nat, [67]); (1%nat, [68]); (1%nat, [69]); (1%nat, [70]); (1%nat, [71]);
   (1%nat, [72]); (1%nat, [73]); (1%nat, [74]); (1%nat, [75]); (1%nat, [76]); (1%nat, [77]); (1%nat, [78]); (1%nat, [79]);
   (1%nat, [80]); (1%nat, [81]); (1%nat, [82]); (1%nat, [83]); (1%nat, [84]); (1%nat, [85]); (1%nat, [86]); (1%nat, [87]);
   (1%nat, [88]); (1%nat, [89]); (1%nat, [90]); (1%nat, [91]); (1%nat, [92]); (1%nat, [93]); (1%nat, [94]); (1%nat, [95]);
   (1%nat, [96]); (1%nat, [97]); (1%nat, [98]); (1%nat, [99]); (1%nat, [100]); (1%nat, [101]); (1%nat, [102]); (1%nat, [103]);
   (1%nat, [104]); (1%nat, [105]); (1%nat, [106]); (1%nat, [107]); (1%nat, [108]); (1%nat, [109]); (1%nat, [110]); (1%nat, [111]);
   (1%nat, [112]); (1%nat, [113]); (1%nat, [114]); (1%nat, [115]); (1%nat, [116]); (1%nat, [117]); (1%nat, [118]); (1%nat, [119]);
   (1%nat, [120]); (1%nat, [121]); (1%nat, [122]); (1%nat, [123]); (1%nat, [124]); (1%nat, [125]); (1%nat, [126]); (1%nat, [127]);
   (2%nat, [194; 128]); (2%nat, [194; 129]); (2%nat, [194; 130]); (2%nat, [194; 131]); (2%nat, [194; 132]); (2%nat, [194; 133]); (2%nat, [194; 134]); (2%nat, [194; 135]);
   (2%nat, [194; 136]); (2%nat, [194; 137]); (2%nat, [194; 138]); (2%nat, [194; 139]); (2%nat, [194; 140]); (2%nat, [194; 141]); (2%nat, [194; 142]); (2%nat, [194; 143]);
   (2%nat, [194; 144]); (2%nat, [194; 145]); (2%nat, [194; 146]); (2%nat, [194; 147]); (2%nat, [194; 148]); (2%nat, [194; 149]); (2%nat, [194; 150]); (2%nat, [194; 151]);
   (2%nat, [194; 152]); (2%nat, [194; 153]); (2%nat, [194; 154]); (2%nat, [194; 155]); (2%nat, [194; 156]); (2%nat, [194; 157]); (2%nat, [194; 158]); (2%nat, [194; 159]);
   (2%nat, [194; 160]); (1%nat, [0]); (1%nat, [0]); (1%nat, [0]); (2%nat, [194; 164]); (1%nat, [0]); (1%nat, [0]); (1%nat, [0]);
   (1%nat, [0]); (1%nat, [0]); (1%nat, [0]); (1%nat, [0]); (2%nat, [216; 140]); (2%nat, [194; 173]); (1%nat, [0]); (1%nat, [0]);
   (1%nat, [0]); (1%nat, [0]); (1%nat, [0]); (1%nat, [0]); (1%nat, [0]); (1%nat, [0]); (1%nat, [0]); (1%nat, [0]);
   (1%nat, [0]); (1%nat, [0]); (1%nat, [0]); (2%nat, [216; 155]); (1%nat, [0]); (1%nat, [0]); (1%nat, [0]); (2%nat, [216; 159]);
   (1%nat, [0]); (2%nat, [216; 161]); (2%nat, [216; 162]); (2%nat, [216; 163]); (2%nat, [216; 164]); (2%nat, [216; 165]); (2%nat, [216; 166]); (2%nat, [216; 167]);
   (2%nat, [216; 168]); (2%nat, [216; 169]); (2%nat, [216; 170]); (2%nat, [216; 171]); (2%nat, [216; 172]); (2%nat, [216; 173]); (2%nat, [216; 174]); (2%nat, [216; 175]);
   (2%nat, [216; 176]); (2%nat, [216; 177]); (2%nat, [216; 178]); (2%nat, [216; 179]); (2%nat, [216; 180]); (2%nat, [216; 181]); (2%nat, [216; 182]); (2%nat, [216; 183]);
   (2%nat, [216; 184]); (2%nat, [216; 185]); (2%nat, [216; 186]); (1%nat, [0]); (1%nat, [0]); (1%nat, [0]); (1%nat, [0]); (1%nat, [0]);
   (2%nat, [217; 128]); (2%nat, [217; 129]); (2%nat, [217; 130]); (2%nat, [217; 131]); (2%nat, [217; 132]); (2%nat, [217; 133]); (2%nat, [217; 134]); (2%nat, [217; 135]);
   (2%nat, [217; 136]); (2%nat, [217; 137]); (2%nat, [217; 138]); (2%nat, [217; 139]); (2%nat, [217; 140]); (2%nat, [217; 141]); (2%nat, [217; 142]); (2%nat, [217; 143]);
   (2%nat, [217; 144]); (2%nat, [217; 145]); (2%nat, [217; 146]); (1%nat, [0]); (1%nat, [0]); (1%nat, [0]); (1%nat, [0]); (1%nat, [0]);
   (1%nat, [0]); (1%nat, [0]); (1%nat, [0]); (1%nat, [0]); (1%nat, [0]); (1%nat, [0]); (1%nat, [0]); (1%nat, [0])
  ].

(** babel/axl_babel_iso88597.c, axl_babel_build_iso88597_table *)
Definition table_7 : list (nat * list N) :=
  [
   (1%nat, [0]); (1%nat, [1]); (1%nat, [2]); (1%nat, [3]); (1%nat, [4]); (1%nat, [5]); (1%nat, [6]); (1%nat, [7]);
   (1%nat, [8]); (1%nat, [9]); (1%nat, [10]); (1%nat, [11]); (1%nat, [12]); (1%nat, [13]); (1%nat, [14]); (1%nat, [15]);
   (1%nat, [16]); (1%nat, [17]); (1%nat, [18]); (1%nat, [19]); (1%nat, [20]); (1%nat, [21]); (1%nat, [22]); (1%nat, [23]);
   (1%nat, [24]); (1%nat, [25]); (1%nat, [26]); (1%nat, [27]); (1%nat, [28]); (1%nat, [29]); (1%nat, [30]); (1%nat, [31]);
   (1%nat, [32]); (1%nat, [33]); (1%nat, [34]); (1%nat, [35]); (1%nat, [36]); (1%nat, [37]); (1%nat, [38]); (1%nat, [39]);
   (1%nat, [40]); (1%nat, [41]); (1%nat, [42]); (1%nat, [43]); (1%nat, [44]); (1%nat, [45]); (1%nat, [46]); (1%nat, [47]);
   (1%nat, [48]); (1%nat, [49]); (1%nat, [50]); (1%nat, [51]); (1%nat, [52]); (1%nat, [53]); (1%nat, [54]); (1%nat, [55]);
   (1%nat, [56]); (1%nat, [57]); (1%nat, [58]); (1%nat, [59]); (1%nat, [60]); (1%nat, [61]); (1%nat, [62]); (1%nat, [63]);
   (1%nat, [64]); (1%nat, [65]); (1%nat, [66]); (1%nat, [67]); (1%nat, [68]); (1%nat, [69]); (1%nat, [70]); (1%nat, [71]);
   (1%nat, [72]); (1%nat, [73]); (1%nat, [74]); (1%nat, [75]); (1%nat, [76]); (1%nat, [77]); (1%nat, [78]); (1%nat, [79]);
   (1%nat, [80]); (1%nat, [81]); (1%nat, [82]); (1%nat, [83]); (1%nat, [84]); (1%nat, [85]); (1%nat, [86]); (1%nat, [87]);
   (1%nat, [88]); (1%nat, [89]); (1%nat, [90]); (1%nat, [91]); (1%nat, [92]); (1%nat, [93]); (1%nat, [94]); (1%nat, [95]);
   (1%nat, [96]); (1%nat, [97]); (1%nat, [98]); (1%nat, [99]); (1%nat, [100]); (1%nat, [101]); (1%nat, [102]); (1%nat, [103]);
   (1%nat, [104]); (1%nat, [105]); (1%nat, [106]); (1%nat, [107]); (1%nat, [108]); (1%nat, [109]); (1%nat, [110]); (1%nat, [111]);
   (1%nat, [112]); (1%nat, [113]); (1%nat, [114]); (1%nat, [115]); (1%nat, [116]); (1%nat, [117]); (1%nat, [118]); (1%nat, [119]);
   (1%nat, [120]); (1%nat, [121]); (1%nat, [122]); (1%nat, [123]); (1%nat, [124]); (1%nat, [125]); (1%nat, [126]); (1%nat, [127]);
   (2%nat, [194; 128]); (2%nat, [194; 129]); (2%nat, [194; 130]); (2%nat, [194; 131]); (2%nat, [194; 132]); (2%nat, [194; 133]); (2%nat, [194; 134]); (2%nat, [194; 135]);
   (2%nat, [194; 136]); (2%nat, [194; 137]); (2%nat, [194; 138]); (2%nat, [194; 139]); (2%nat, [194; 140]); (2%nat, [194; 141]); (2%nat, [194; 142]); (2%nat, [194; 143]);
   (2%nat, [194; 144]); (2%nat, [194; 145]); (2%nat, [194; 146]); (2%nat, [194; 147]); (2%nat, [194; 148]); (2%nat, [194; 149]); (2%nat, [194; 150]); (2%nat, [194; 151]);
   (2%nat, [194; 152]); (2%nat, [194; 153]); (2%nat, [194; 154]); (2%nat, [194; 155]); (2%nat, [194; 156]); (2%nat, [194; 157]); (2%nat, [194; 158]); (2%nat, [194; 159]);
   (2%nat, [194; 160]); (3%nat, [226; 128; 152]); (3%nat, [226; 128; 153]); (2%nat, [194; 163]); (3%nat, [226; 130; 172]); (3%nat, [226; 130; 175]); (2%nat, [194; 166]); (2%nat, [194; 167]);
   (2%nat, [194; 168]); (2%nat, [194; 169]); (2%nat, [205; 186]); (2%nat, [194; 171]); (2%nat, [194; 172]); (2%nat, [194; 173]); (1%nat, [0]); (3%nat, [226; 128; 149]);
   (2%nat, [194; 176]); (2%nat, [194; 177]); (2%nat, [194; 178]); (2%nat, [194; 179]); (2%nat, [206; 132]); (2%nat, [206; 133]); (2%nat, [206; 134]); (2%nat, [194; 183]);
   (2%nat, [206; 136]); (2%nat, [206; 137]); (2%nat, [206; 138]); (2%nat, [194; 187]); (2%nat, [206; 140]); (2%nat, [194; 189]); (2%nat, [206; 142]); (2%nat, [206; 143]);
   (2%nat, [206; 144]); (2%nat, [206; 145]); (2%nat, [206; 146]); (2%nat, [206; 147]); (2%nat, [206; 148]); (2%nat, [206; 149]); (2%nat, [206; 150]); (2%nat, [206; 151]);
   (2%nat, [206; 152]); (2%nat, [206; 153]); (2%nat, [206; 154]); (2%nat, [206; 155]); (2%nat, [206; 156]); (2%nat, [206; 157]); (2%nat, [206; 158]); (2%nat, [206; 159]);
   (2%nat, [206; 160]); (2%nat, [206; 161]); (1%nat, [0]); (2%nat, [206; 163]); (2%nat, [206; 164]); (2%nat, [206; 165]); (2%nat, [206; 166]); (2%nat, [206; 167]);
   (2%nat, [206; 168]); (2%nat, [206; 169]); (2%nat, [206; 170]); (2%nat, [206; 171]); (2%nat, [206; 172]); (2%nat, [206; 173]); (2%nat, [206; 174]); (2%nat, [206; 175]);
   (2%nat, [206; 176]); (2%nat, [206; 177]); (2%nat, [206; 178]); (2%nat, [206; 179]); (2%nat, [206; 180]); (2%nat, [206; 181]); (2%nat, [206; 182]); (2%nat, [206; 183]);
   (2%nat, [206; 184]); (2%nat, [206; 185]); (2%nat, [206; 186]); (2%nat, [206; 187]); (2%nat, [206; 188]); (2%nat, [206; 189]); (2%nat, [206; 190]); (2%nat, [206; 191]);
   (2%nat, [207; 128]); (2%nat, [207; 129]); (2%nat, [207; 130]); (2%nat, [207; 131]); (2%nat, [207; 132]); (2%nat, [207; 133]); (2%nat, [207; 134]); (2%nat, [207; 135]);
   (2%nat, [207; 136]); (2%nat, [207; 137]); (2%nat, [207; 138]); (2%nat, [207; 139]); (2%nat, [207; 140]); (2%nat, [207; 141]); (2%nat, [207; 142]); (1%nat, [0])
  ].

(** babel/axl_babel_iso88598.c, axl_babel_build_iso88598_table *)
Definition table_8 : list (nat * list N) :=
  [
   (1%nat, [0]); (1%nat, [1]); (1%nat, [2]); (1%nat, [3]); (1%nat, [4]); (1%nat, [5]); (1%nat, [6]); (1%nat, [7]);
   (1%nat, [8]); (1%nat, [9]); (1%nat, [10]); (1%nat, [11]); (1%nat, [12]); (1%nat, [13]); (1%nat, [14]); (1%nat, [15]);
   (1%nat, [16]); (1%nat, [17]); (1%nat, [18]); (1%nat, [19]); (1%nat, [20]); (1%nat, [21]); (1%nat, [22]); (1%nat, [23]);
   (1%nat, [24]); (1%nat, [25]); (1%nat, [26]); (1%nat, [27]); (1%nat, [28]); (1%nat, [29]); (1%nat, [30]); (1%nat, [31]);
   (1%nat, [32]); (1%nat, [33]); (1%nat, [34]); (1%nat, [35]); (1%nat, [36]); (1%nat, [37]); (1%nat, [38]); (1%nat, [39]);
   (1%nat, [40]); (1%nat, [41]); (1%nat, [42]); (1%nat, [43]); (1%nat, [44]); (1%nat, [45]); (1%nat, [46]); (1%nat, [47]);
   (1%nat, [48]); (1%nat, [49]); (1%nat, [50]); (1%nat, [51]); (1%nat, [52]); (1%nat, [53]); (1%nat, [54]); (1%nat, [55]);
   (1%nat, [56]); (1%nat, [57]); (1%nat, [58]); (1%nat, [59]); (1%nat, [60]); (1%nat, [61]); (1%nat, [62]); (1%nat, [63]);
   (1%nat, [64]); (1%nat, [65]); (1%nat, [66]); (1%nat, [67]); (1%nat, [68]); (1%nat, [69]); (1%nat, [70]); (1%nat, [71]);
   (1%nat, [72]); (1%nat, [73]); (1%nat, [74]); (1%nat, [75]); (1%nat, [76]); (1%nat, [77]); (1%nat, [78]); (1%nat, [79]);
   (1%nat, [80]); (1%nat, [81]); (1%nat, [82]); (1%nat, [83]); (1%nat, [84]); (1%nat, [85]); (1%nat, [86]); (1%nat, [87]);
   (1%nat, [88]); (1%nat, [89]); (1%nat, [90]); (1%nat, [91]); (1%nat, [92]); (1%nat, [93]); (1%nat, [94]); (1%nat, [95]);
   (1%nat, [96]); (1%nat, [97]); (1%nat, [98]); (1%nat, [99]); (1%nat, [100]); (1%nat, [101]); (1%nat, [102]); (1%nat, [103]);
   (1%nat, [104]); (1%nat, [105]); (1%nat, [106]); (1%nat, [107]); (1%nat, [108]); (1%nat, [109]); (1%nat, [110]); (1%nat, [111]);
   (1%nat, [112]); (1%nat, [113]); (1%nat, [114]); (1%nat, [115]); (1%nat, [116]); (1%nat, [117]); (1%nat, [118]); (1%nat, [119]);
   (1%nat, [120]); (1%nat, [121]); (1%nat, [122]); (1%nat, [123]); (1%nat, [124]); (1%nat, [125]); (1%nat, [126]); (1%nat, [127]);
   (2%nat, [194; 128]); (2%nat, [194; 129]); (2%nat, [194; 130]); (2%nat, [194; 131]); (2%nat, [194; 132]); (2%nat, [194; 133]); (2%nat, [194; 134]); (2%nat, [194; 135]);
   (2%nat, [194; 136]); (2%nat, [194; 137]); (2%nat, [194; 138]); (2%nat, [194; 139]); (2%nat, [194; 140]); (2%nat, [194; 141]); (2%nat, [194; 142]); (2%nat, [194; 143]);
   (2%nat, [194; 144]); (2%nat, [194; 145]); (2%nat, [194; 146]); (2%nat, [194; 147]); (2%nat, [194; 148]); (2%nat, [194; 149]); (2%nat, [194; 150]); (2%nat, [194; 151]);
   (2%nat, [194; 152]); (2%nat, [194; 153]); (2%nat, [194; 154]); (2%nat, [194; 155]); (2%nat, [194; 156]); (2%nat, [194; 157]); (2%nat, [194; 158]); (2%nat, [194; 159]);
   (2%nat, [194; 160]); (1%nat, [0]); (2%nat, [194; 162]); (2%nat, [194; 163]); (2%nat, [194; 164]); (2%nat, [194; 165]); (2%nat, [194; 166]); (2%nat, [194; 167]);
   (2%nat, [194; 168]); (2%nat, [194; 169]); (2%nat, [195; 151]); (2%nat, [194; 171]); (2%nat, [194; 172]); (2%nat, [194; 173]); (2%nat, [194; 174]); (2%nat, [194; 175]);
   (2%nat, [194; 176]); (2%nat, [194; 177]); (2%nat, [194; 178]); (2%nat, [194; 179]); (2%nat, [194; 180]); (2%nat, [194; 181]); (2%nat, [194; 182]); (2%nat, [194; 183]);
   (2%nat, [194; 184]); (2%nat, [194; 185]); (2%nat, [195; 183]); (2%nat, [194; 187]); (2%nat, [194; 188]); (2%nat, [194; 189]); (2%nat, [194; 190]); (1%nat, [0]);
   (1%nat, [0]); (1%nat, [0]); (1%nat, [0]); (1%nat, [0]); (1%nat, [0]); (1%nat, [0]); (1%nat, [0]); (1%nat, [0]);
   (1%nat, [0]); (1%nat, [0]); (1%nat, [0]); (1%nat, [0]); (1%nat, [0]); (1%nat, [0]); (1%nat, [0]); (1%nat, [0]);
   (1%nat, [0]); (1%nat, [0]); (1%nat, [0]); (1%nat, [0]); (1%nat, [0]); (1%nat, [0]); (1%nat, [0]); (1%nat, [0]);
   (1%nat, [0]); (1%nat, [0]); (1%nat, [0]); (1%nat, [0]); (1%nat, [0]); (1%nat, [0]); (1%nat, [0]); (3%nat, [226; 128; 151]);
   (2%nat, [215; 144]); (2%nat, [215; 145]); (2%nat, [215; 146]); (2%nat, [215; 147]); (2%nat, [215; 148]); (2%nat, [215; 149]); (2%nat, [215; 150]); (2%nat, [215; 151]);
   (2%nat, [215; 152]); (2%nat, [215; 153]); (2%nat, [215; 154]); (2%nat, [215; 155]); (2%nat, [215; 156]); (2%nat, [215; 157]); (2%nat, [215; 158]); (2%nat, [215; 159]);
   (2%nat, [215; 160]); (2%nat, [215; 161]); (2%nat, [215; 162]); (2%nat, [215; 163]); (2%nat, [215; 164]); (2%nat, [215; 165]); (2%nat, [215; 166]); (2%nat, [215; 167]);
   (2%nat, [215; 168]); (2%nat, [215; 169]); (2%nat, [215; 170]); (1%nat, [0]); (1%nat, [0]); (3%nat, [226; 128; 142]); (3%nat, [226; 128; 143]); (1%nat, [0])
  ].

(** babel/axl_babel_iso88599.c, axl_babel_build_iso88599_table *)
Definition table_9 : list (nat * list N) :=
  [
   (1%nat, [0]); (1%nat, [1]); (1%nat, [2]); (1%nat, [3]); (1%nat, [4]); (1%nat, [5]); (1%nat, [6]); (1%nat, [7]);
   (1%nat, [8]); (1%nat, [9]); (1%nat, [10]); (1%nat, [11]); (1%nat, [12]); (1%nat, [13]); (1%nat, [14]); (1%nat, [15]);
   (1%nat, [16]); (1%nat, [17]); (1%nat, [18]); (1%nat, [19]); (1%nat, [20]); (1%nat, [21]); (1%nat, [22]); (1%nat, [23]);
   (1%nat, [24]); (1%nat, [25]); (1%nat, [26]); (1%nat, [27]); (1%nat, [28]); (1%nat, [29]); (1%nat, [30]); (1%nat, [31]);
   (1%nat, [32]); (1%nat, [33]); (1%nat, [34]); (1%nat, [35]); (1%nat, [36]); (1%nat, [37]); (1%nat, [38]); (1%nat, [39]);
   (1%nat, [40]); (1%nat, [41]); (1%nat, [42]); (1%nat, [43]); (1%nat, [44]); (1%nat, [45]); (1%nat, [46]); (1%nat, [47]);
   (1%nat, [48]); (1%nat, [49]); (1%nat, [50]); (1%nat, [51]); (1%nat, [52]); (1%nat, [53]); (1%nat, [54]); (1%nat, [55]);
   (1%nat, [56]); (1%nat, [57]); (1%nat, [58]); (1%nat, [59]); (1%nat, [60]); (1%nat, [61]); (1%nat, [62]); (1%nat, [63]);
   (1%nat, [64]); (1%nat, [65]); (1%nat, [66]); (1%nat, [67]); (1%nat, [68]); (1%nat, [69]); (1%nat, [70]); (1%nat, [71]);
   (1%nat, [72]); (1%nat, [73]); (1%nat, [74]); (1%nat, [75]); (1%nat, [76]); (1%nat, [77]); (1%nat, [78]); (1%nat, [79]);
   (1%nat, [80]); (1%nat, [81]); (1%nat, [82]); (1%nat, [83]); (1%nat, [84]); (1%nat, [85]); (1%nat, [86]); (1%nat, [87]);
   (1%nat, [88]); (1%nat, [89]); (1%nat, [90]); (1%nat, [91]); (1%nat, [92]); (1%nat, [93]); (1%nat, [94]); (1%nat, [95]);
   (1%nat, [96]); (1%nat, [97]); (1%nat, [98]); (1%nat, [99]); (1%nat, [100]); (1%nat, [101]); (1%nat, [102]); (1%nat, [103]);
   (1%nat, [104]); (1%nat, [105]); (1%nat, [106]); (1%nat, [107]); (1%nat, [108]); (1%nat, [109]); (1%nat, [110]); (1%nat, [111]);
   (1%nat, [112]); (1%nat, [113]); (1%nat, [114]); (1%nat, [115]); (1%nat, [116]); (1%nat, [117]); (1%nat, [118]); (1%nat, [119]);
   (1%nat, [120]); (1%nat, [121]); (1%nat, [122]); (1%nat, [123]); (1%nat, [124]); (1%nat, [125]); (1%nat, [126]); (1%nat, [127]);
   (2%nat, [194; 128]); (2%nat, [194; 129]); (2%nat, [194; 130]); (2%nat, [194; 131]); (2%nat, [194; 132]); (2%nat, [194; 133]); (2%nat, [194; 134]); (2%nat, [194; 135]);
   (2%nat, [194; 136]); (2%nat, [194; 137]); (2%nat, [194; 138]); (2%nat, [194; 139]); (2%nat, [194; 140]); (2%nat, [194; 141]); (2%nat, [194; 142]); (2%nat, [194; 143]);
   (2%nat, [194; 144]); (2%nat, [194; 145]); (2%nat, [194; 146]); (2%nat, [194; 147]); (2%nat, [194; 148]); (2%nat, [194; 149]); (2%nat, [194; 150]); (2%nat, [194; 151]);
   (2%nat, [194; 152]); (2%nat, [194; 153]); (2%nat, [194; 154]); (2%nat, [194; 155]); (2%nat, [194; 156]); (2%nat, [194; 157]); (2%nat, [194; 158]); (2%nat, [194; 159]);
   (2%nat, [194; 160]); (2%nat, [194; 161]); (2%nat, [194; 162]); (2%nat, [194; 163]); (2%nat, [194; 164]); (2%nat, [194; 165]); (2%nat, [194; 166]); (2%nat, [194; 167]);
   (2%nat, [194; 168]); (2%nat, [194; 169]); (2%nat, [194; 170]); (2%nat, [194; 171]); (2%nat, [194; 172]); (2%nat, [194; 173]); (2%nat, [194; 174]); (2%nat, [194; 175]);
   (2%nat, [194; 176]); (2%nat, [194; 177]); (2%nat, [194; 178]); (2%nat, [194; 179]); (2%nat, [194; 180]); (2%nat, [194; 181]); (2%nat, [194; 182]); (2%nat, [194; 183]);
   (2%nat, [194; 184]); (2%nat, [194; 185]); (2%nat, [194; 186]); (2%nat, [194; 187]); (2%nat, [194; 188]); (2%nat, [194; 189]); (2%nat, [194; 190]); (2%nat, [194; 191]);
   (2%nat, [195; 128]); (2%nat, [195; 129]); (2%nat, [195; 130]); (2%nat, [195; 131]); (2%nat, [195; 132]); (2%nat, [195; 133]); (2%nat, [195; 134]); (2%nat, [195; 135]);
   (2%nat, [195; 136]); (2%nat, [195; 137]); (2%nat, [195; 138]); (2%nat, [195; 139]); (2%nat, [195; 140]); (2%nat, [195; 141]); (2%nat, [195; 142]); (2%nat, [195; 143]);
   (2%nat, [196; 158]); (2%nat, [195; 145]); (2%nat, [195; 146]); (2%nat, [195; 147]); (2%nat, [195; 148]); (2%nat, [195; 149]); (2%nat, [195; 150]); (2%nat, [195; 151]);
   (2%nat, [195; 152]); (2%nat, [195; 153]); (2%nat, [195; 154]); (2%nat, [195; 155]); (2%nat, [195; 156]); (2%nat, [196; 176]); (2%nat, [197; 158]); (2%nat, [195; 159]);
   (2%nat, [195; 160]); (2%nat, [195; 161]); (2%nat, [195; 162]); (2%nat, [195; 163]); (2%nat, [195; 164]); (2%nat, [195; 165]); (2%nat, [195; 166]); (2%nat, [195; 167]);
   (2%nat, [195; 168]); (2%nat, [195; 169]); (2%nat, [195; 170]); (2%nat, [195; 171]); (2%nat, [195; 172]); (2%nat, [195; 173]); (2%nat, [195; 174]); (2%nat, [195; 175]);
   (2%nat, [196; 159]); (2%nat, [195; 177]); (2%nat, [195; 178]); (2%nat, [195; 179]); (2%nat, [195; 180]); (2%nat, [195; 181]); (2%nat, [195; 182]); (2%nat, [195; 183]);
   (2%nat, [195; 184]); (2%nat, [195; 185]); (2%nat, [195; 186]); (2%nat, [195; 187]); (2%nat, [195; 188]); (2%nat, [196; 177]); (2%nat, [197; 159]); (2%nat, [195; 191])
  ].

(** babel/axl_babel_iso885915.c, axl_babel_build_iso885915_table *)
Definition table_15 : list (nat * list N) :=
  [
   (1%nat, [0]); (1%nat, [1]); (1%nat, [2]); (1%nat, [3]); (1%nat, [4]); (1%nat, [5]); (1%nat, [6]); (1%nat, [7]);
   (1%nat, [8]); (1%nat, [9]); (1%nat, [10]); (1%nat, [11]); (1%nat, [12]); (1%nat, [13]); (1%nat, [14]); (1%nat, [15]);
   (1%nat, [16]); (1%nat, [17]); (1%nat, [18]); (1%nat, [19]); (1%nat, [20]); (1%nat, [21]); (1%nat, [22]); (1%nat, [23]);
   (1%nat, [24]); (1%nat, [25]); (1%nat, [26]); (1%nat, [27]); (1%nat, [28]); (1%nat, [29]); (1%nat, [30]); (1%nat, [31]);
   (1%nat, [32]); (1%nat, [33]); (1%nat, [34]); (1%nat, [35]); (1%nat, [36]); (1%nat, [37]); (1%nat, [38]); (1%nat, [39]);
   (1%nat, [40]); (1%nat, [41]); (1%nat, [42]); (1%nat, [43]); (1%nat, [44]); (1%nat, [45]); (1%nat, [46]); (1%nat, [47]);
   (1%nat, [48]); (1%nat, [49]); (1%nat, [50]); (1%nat, [51]); (1%nat, [52]); (1%nat, [53]); (1%nat, [54]); (1%nat, [55]);
   (1%nat, [56]); (1%nat, [57]); (1%nat, [58]); (1%nat, [59]); (1%nat, [60]); (1%nat, [61]); (1%nat, [62]); (1%nat, [63]);
   (1%nat, [64]); (1%nat, [65]); (1%nat, [66]); (1%nat, [67]); (1%nat, [68]); (1%nat, [69]); (1%nat, [70]); (1%nat, [71]);
   (1%nat, [72]); (1%nat, [73]); (1%nat, [74]); (1%nat, [75]); (1%nat, [76]); (1%nat, [77]); (1%nat, [78]); (1%nat, [79]);
   (1%nat, [80]); (1%nat, [81]); (1%nat, [82]); (1%nat, [83]); (1%nat, [84]); (1%nat, [85]); (1%nat, [86]); (1%nat, [87]);
   (1%nat, [88]); (1%nat, [89]); (1%nat, [90]); (1%nat, [91]); (1%nat, [92]); (1%nat, [93]); (1%nat, [94]); (1%nat, [95]);
   (1%nat, [96]); (1%nat, [97]); (1%nat, [98]); (1%nat, [99]); (1%nat, [100]); (1%nat, [101]); (1%nat, [102]); (1%nat, [103]);
   (1%nat, [104]); (1%nat, [105]); (1%nat, [106]); (1%nat, [107]); (1%nat, [108]); (1%nat, [109]); (1%nat, [110]); (1%nat, [111]);
   (1%nat, [112]); (1%nat, [113]); (1%nat, [114]); (1%nat, [115]); (1%nat, [116]); (1%nat, [117]); (1%nat, [118]); (1%nat, [119]);
   (1%nat, [120]); (1%nat, [121]); (1%nat, [122]); (1%nat, [123]); (1%nat, [124]); (1%nat, [125]); (1%nat, [126]); (1%nat, [127]);
   (2%nat, [194; 128]); (2%nat, [194; 129]); (2%nat, [194; 130]); (2%nat, [194; 131]); (2%nat, [194; 132]); (2%nat, [194; 133]); (2%nat, [194; 134]); (2%nat, [194; 135]);
   (2%nat, [194; 136]); (2%nat, [194; 137]); (2%nat, [194; 138]); (2%nat, [194; 139]); (2%nat, [194; 140]); (2%nat, [194; 141]); (2%nat, [194; 142]); (2%nat, [194; 143]);
   (2%nat, [194; 144]); (2%nat, [194; 145]); (2%nat, [194; 146]); (2%nat, [194; 147]); (2%nat, [194; 148]); (2%nat, [194; 149]); (2%nat, [194; 150]); (2%nat, [194; 151]);
   (2%nat, [194; 152]); (2%nat, [194; 153]); (2%nat, [194; 154]); (2%nat, [194; 155]); (2%nat, [194; 156]); (2%nat, [194; 157]); (2%nat, [194; 158]); (2%nat, [194; 159]);
   (2%nat, [194; 160]); (2%nat, [194; 161]); (2%nat, [194; 162]); (2%nat, [194; 163]); (3%nat, [226; 130; 172]); (2%nat, [194; 165]); (2%nat, [197; 160]); (2%nat, [194; 167]);
   (2%nat, [197; 161]); (2%nat, [194; 169]); (2%nat, [194; 170]); (2%nat, [194; 171]); (2%nat, [194; 172]); (2%nat, [194; 173]); (2%nat, [194; 174]); (2%nat, [194; 175]);
   (2%nat, [194; 176]); (2%nat, [194; 177]); (2%nat, [194; 178]); (2%nat, [194; 179]); (2%nat, [197; 189]); (2%nat, [194; 181]); (2%nat, [194; 182]); (2%nat, [194; 183]);
   (2%nat, [197; 190]); (2%nat, [194; 185]); (2%nat, [194; 186]); (2%nat, [194; 187]); (2%nat, [197; 146]); (2%nat, [197; 147]); (2%nat, [197; 184]); (2%nat, [194; 191]);
   (2%nat, [195; 128]); (2%nat, [195; 129]); (2%nat, [195; 130]); (2%nat, [195; 131]); (2%nat, [195; 132]); (2%nat, [195; 133]); (2%nat, [195; 134]); (2%nat, [195; 135]);
   (2%nat, [195; 136]); (2%nat, [195; 137]); (2%nat, [195; 138]); (2%nat, [195; 139]); (2%nat, [195; 140]); (2%nat, [195; 141]); (2%nat, [195; 142]); (2%nat, [195; 143]);
   (2%nat, [195; 144]); (2%nat, [195; 145]); (2%nat, [195; 146]); (2%nat, [195; 147]); (2%nat, [195; 148]); (2%nat, [195; 149]); (2%nat, [195; 150]); (2%nat, [195; 151]);
   (2%nat, [195; 152]); (2%nat, [195; 153]); (2%nat, [195; 154]); (2%nat, [195; 155]); (2%nat, [195; 156]); (2%nat, [195; 157]); (2%nat, [195; 158]); (2%nat, [195; 159]);
   (2%nat, [195; 160]); (2%nat, [195; 161]); (2%nat, [195; 162]); (2%nat, [195; 163]); (2%nat, [195; 164]); (2%nat, [195; 165]); (2%nat, [195; 166]); (2%nat, [195; 167]);
   (2%nat, [195; 168]); (2%nat, [195; 169]); (2%nat, [195; 170]); (2%nat, [195; 171]); (2%nat, [195; 172]); (2%nat, [195; 173]); (2%nat, [195; 174]); (2%nat, [195; 175]);
   (2%nat, [195; 176]); (2%nat, [195; 177]); (2%nat, [195; 178]); (2%nat, [195; 179]); (2%nat, [195; 180]); (2%nat, [195; 181]); (2%nat, [195; 182]); (2%nat, [195; 183]);
   (2%nat, [195; 184]); (2%nat, [195; 185]); (2%nat, [195; 186]); (2%nat, [195; 187]); (2%nat, [195; 188]); (2%nat, [195; 189]); (2%nat, [195; 190]); (2%nat, [195; 191])
  ].

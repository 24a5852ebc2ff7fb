"""usage: st.py C06 partial 'note'  -- set a status/note"""
import json,sys
p='/verif/tools/status.json'; d=json.load(open(p)); d[sys.argv[1]]=[sys.argv[2],sys.argv[3]]; json.dump(d,open(p,'w'),indent=1)
